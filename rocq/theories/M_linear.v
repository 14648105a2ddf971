(** Model of the linear transfer functions of helper_site_response.py:1221-1460. *)
From Coq Require Import Reals List Bool ZArith Lia Lra.
From Coquelicot Require Import Complex.
From Coq Require Import List.
From Verif Require Import Base M_generic M_profile M_vs_profile M_motion M_interp M_dft.
Import ListNotations.
Open Scope R_scope.

(** [np.sqrt] of a complex number (principal branch) and [np.exp]. *)
Definition csqrt (z : C) : C :=
  (sqrt ((Cmod z + Re z) / 2), (if Rltb (Im z) 0 then -1 else 1) * sqrt ((Cmod z - Re z) / 2)).
Definition cexp (z : C) : C := Cmult (RtoC (exp (Re z))) (cis (Im z)).
Definition Ci : C := (0, 1).

(** One layer: thickness, shear-wave velocity, damping ratio, density. *)
Record lay := mklay { l_h : R; l_vs : R; l_xi : R; l_rho : R }.

(** helper_site_response.py:1283-1290: five columns, or two columns and the rules of
    [get_xi_rho] (default formula 3). *)
Definition lays_of (t : table) : list lay :=
  if Nat.eqb (t_ncol t) 2 then
    let xr := get_xi_rho (col 1 t) 3 in
    map (fun i => mklay (cell 0 (nth i (t_rows t) [])) (cell 1 (nth i (t_rows t) []))
                    (nth i (fst xr) 0) (nth i (snd xr) 0)) (seq 0 (length (t_rows t)))
  else map (fun r => mklay (cell 0 r) (cell 1 r) (cell 2 r) (cell 3 r)) (t_rows t).

(** helper_site_response.py:1294-1299: complex velocities and impedance ratios. *)
Definition vs_star (l : lay) : C := Cmult (RtoC (l_vs l)) (csqrt (Cplus (RtoC 1) (Cmult (RtoC 2) (Cmult Ci (RtoC (l_xi l)))))).
Definition alpha_star (l1 l2 : lay) : C :=
  Cdiv (Cmult (RtoC (l_rho l1)) (vs_star l1)) (Cmult (RtoC (l_rho l2)) (vs_star l2)).
Definition k_star (omega : R) (l : lay) : C := Cdiv (RtoC omega) (vs_star l).

(** 2 x 2 complex matrices and [np.dot]. *)
Record mat := mkmat { m00 : C; m01 : C; m10 : C; m11 : C }.
Definition mid : mat := mkmat (RtoC 1) (RtoC 0) (RtoC 0) (RtoC 1).
Definition mmul (a b : mat) : mat :=
  mkmat (Cplus (Cmult (m00 a) (m00 b)) (Cmult (m01 a) (m10 b)))
        (Cplus (Cmult (m00 a) (m01 b)) (Cmult (m01 a) (m11 b)))
        (Cplus (Cmult (m10 a) (m00 b)) (Cmult (m11 a) (m10 b)))
        (Cplus (Cmult (m10 a) (m01 b)) (Cmult (m11 a) (m11 b))).

(** helper_site_response.py:1322-1334: the matrix of the interface below layer [l1]. *)
Definition Dmat (omega : R) (l1 l2 : lay) : mat :=
  let a := alpha_star l1 l2 in
  let ep := cexp (Cmult (Cmult Ci (k_star omega l1)) (RtoC (l_h l1))) in
  let em := cexp (Cmult (Cmult (Copp Ci) (k_star omega l1)) (RtoC (l_h l1))) in
  let half := RtoC (1 / 2) in
  mkmat (Cmult half (Cmult (Cplus (RtoC 1) a) ep)) (Cmult half (Cmult (Cminus (RtoC 1) a) em))
        (Cmult half (Cmult (Cminus (RtoC 1) a) ep)) (Cmult half (Cmult (Cplus (RtoC 1) a) em)).

(** helper_site_response.py:1319-1335: the product, from the bottom interface to the
    top one. *)
Definition Emat (omega : R) (ls : list lay) : mat :=
  fold_left (fun E p => mmul E (Dmat omega (fst p) (snd p))) (rev (combine ls (tl ls))) mid.

(** helper_site_response.py:1337-1339.  The denominators never vanish (proved in
    Prop_linear.v), so the total division of the model is the division of the code. *)
Definition tf_ro (omega : R) (ls : list lay) : C :=
  let E := Emat omega ls in Cdiv (RtoC 1) (Cplus (m00 E) (m01 E)).
Definition tf_in (omega : R) (ls : list lay) : C :=
  let E := Emat omega ls in Cdiv (RtoC 2) (Cplus (m00 E) (m01 E)).
Definition tf_bh (omega : R) (ls : list lay) : C :=
  let E := Emat omega ls in Cdiv (RtoC 2) (Cplus (Cplus (Cplus (m00 E) (m10 E)) (m01 E)) (m11 E)).

(** The returned tuple. *)
Record linres := mklinres {
  lr_freq : list R; lr_AF_ro : list R; lr_TF_ro : list C; lr_f0_ro : R;
  lr_AF_in : list R; lr_TF_in : list C;
  lr_AF_bh : list R; lr_TF_bh : list C; lr_f0_bh : R }.

(** helper_site_response.py:1221-1460 [linear_tf] for a positive resolution; line
    1301: the number of frequencies ([np.linspace] raises on a negative one);
    the figure is not modelled. *)
Definition linear_tf (t : table) (res_f fmax : R) : res linres :=
  match check_Vs_profile_format (as_pyobj t) with
  | Err e => Err e
  | Ok _ =>
    let ls := lays_of t in
    let size := Int_part (fmax / res_f) in
    if (size <? 0)%Z then Err ValueError
    else
      let n := Z.to_nat size in
      let freq := linspace res_f (res_f * IZR size) n in
      let w f := 2 * PI * f in
      let ro := map (fun f => tf_ro (w f) ls) freq in
      let inc := map (fun f => tf_in (w f) ls) freq in
      let bh := map (fun f => tf_bh (w f) ls) freq in
      let! f0_ro := find_f0 (combine freq (map Cmod ro)) in
      let! _ := find_f0 (combine freq (map Cmod inc)) in
      let! f0_bh := find_f0 (combine freq (map Cmod bh)) in
      Ok (mklinres freq (map Cmod ro) ro f0_ro (map Cmod inc) inc (map Cmod bh) bh f0_bh)
  end.
