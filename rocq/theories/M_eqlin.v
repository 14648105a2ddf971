(** Model of [equiv_linear] and [check_layer_count], helper_simulations.py:18-63 and
    224-472.  As in M_simlin a vanishing modulus (inf or NaN in the code) is outside the
    model; the theorems show when the moduli stay positive.  The progress messages are
    dropped; [G_matrix] and [D_matrix] (lines 358-361 and 407-408) are write-only, only
    the error of allocating them with a negative size is kept. *)
From Coq Require Import Reals List Bool ZArith Lia Lra.
From Coquelicot Require Import Complex.
From Coq Require Import List.
From Verif Require Import Base M_generic M_profile M_vs_profile M_motion M_interp M_dft M_spectra M_linear M_simlin.
Import ListNotations.
Open Scope R_scope.

(** ** Curve matrix: a 2D array seen as a list of columns of [cm_n] rows *)
Record cmat := mkcmat { cm_n : nat; cm_cols : list (list R) }.

(** [curve_matrix[:, j]] with Python's negative indices. *)
Definition get_col (cm : cmat) (j : Z) : res (list R) :=
  let n := Z.of_nat (length (cm_cols cm)) in
  if ((0 <=? j) && (j <? n))%Z then Ok (nth (Z.to_nat j) (cm_cols cm) [])
  else if ((- n <=? j) && (j <? 0))%Z then Ok (nth (Z.to_nat (n + j)) (cm_cols cm) [])
  else Err IndexError.

(** Lines 343-355: the curves of one layer, as fractions, damping shifted so as to start
    at the damping of the profile ([D_vector[0, k]] raises IndexError without rows). *)
Record ecurve := mkecurve { ec_sG : list R; ec_G : list R; ec_sD : list R; ec_D : list R }.
Definition layer_curve (cm : cmat) (r : row) : res ecurve :=
  let m := (mat_of r * 4)%Z in
  let! sg := get_col cm (m + 0) in
  let! g := get_col cm (m + 1) in
  let! sd := get_col cm (m + 2) in
  let! d := get_col cm (m + 3) in
  let dv := map (fun x => x / 100) d in
  let! d0 := get dv 0 in
  Ok (mkecurve (map (fun x => x / 100) sg) g (map (fun x => x / 100) sd)
        (map (fun x => x - d0 + nth 0 (r_rest r) 0) dv)).

(** Lines 384-401: new modulus and damping of one layer for an effective strain. *)
Definition table_G (c : ecurve) : list (R * R) :=
  combine (0 :: ec_sG c ++ [100]) (1 :: ec_G c ++ [Rmin (1 / 10000) (last (ec_G c) 0)]).
Definition table_D (c : ecurve) : list (R * R) :=
  combine (0 :: ec_sD c ++ [100]) (hd 0 (ec_D c) :: ec_D c ++ [last (ec_D c) 0]).
Definition renew (c : ecurve) (Gmax eff : R) : res (R * R) :=
  let! g := interp1 (table_G c) eff in
  let! d := interp1 (table_D c) eff in
  Ok (Gmax * g, d).

(** Lines 403-404 and 420-421: one relative difference below the tolerance; a quotient
    by zero is inf or NaN, never below it. *)
Definition settled (tol old new : R) : bool := negb (Reqb new 0) && Rltb (Rabs (old - new) / new) tol.

(** Modulus and damping of every layer, the last one (rock) never changing. *)
Definition moduli := list (R * R).
Definition elays (p : list row) (s : moduli) : list elay :=
  map (fun q => mkelay (r_h (fst q)) (fst (snd q)) (snd (snd q)) (nth 1 (r_rest (fst q)) 0)) (combine p s).
Definition initial (p : list row) : moduli := map (fun r => (e_G (elay_of r), e_D (elay_of r))) p.
Definition all_settled (tol : R) (s s' : moduli) : bool :=
  forallb (fun q => settled tol (fst (fst q)) (fst (snd q)) && settled tol (snd (fst q)) (snd (snd q))) (combine (removelast s) (removelast s')).

(** One iteration, lines 367-406. *)
Definition iteration (inp : inputs) (cs : list ecurve) (b : boundary) (Rg : R) (s : moduli) : res (response * moduli) :=
  let p := in_profile inp in
  let! r := lin_resp (length (in_A inp)) (in_dt inp) (elays p s) b (in_A inp) Rg in
  let! s' := map_res (fun q => renew (fst (fst q)) (e_G (elay_of (snd (fst q)))) (snd q)) (combine (combine cs p) (rs_eff r)) in
  Ok (r, s' ++ [last s (0, 0)]).

(** Lines 363-427.  [np.max] of an empty array raises ValueError; leaving the loop
    without an iteration leaves [strain] unbound. *)
Fixpoint iterate (inp : inputs) (cs : list ecurve) (b : boundary) (Rg tol : R) (verbose : bool) (n : nat)
    (s : moduli) (last_r : option response) : res (moduli * response) :=
  match n with
  | O => match last_r with None => Err UnboundLocalError | Some r => Ok (s, r) end
  | S n' =>
      let! (r, s') := iteration inp cs b Rg s in
      match removelast s with
      | [] => Err ValueError
      | _ => if all_settled tol s s' && verbose then Ok (s', r)
             else iterate inp cs b Rg tol verbose n' s' (Some r)
      end
  end.

(** The damping column of the returned profile is the array the loop writes to (line 406
    through the view made at line 559). *)
Definition set_damping (p : list row) (s : moduli) : list row :=
  map (fun q => mkrow (r_h (fst q)) (r_vs (fst q)) (snd (snd q) :: tl (r_rest (fst q)))) (combine p s).

(** Lines 319-472.  [max_iter] is an integer: [np.zeros((n, max_iter + 1))] raises
    ValueError for less than -1, and [G_matrix[:, 0]] IndexError for -1. *)
Definition equiv_linear (t : table) (s : signal) (cm : cmat) (b : boundary) (tol Rg : R) (max_iter : Z) (verbose : bool) : res simres :=
  match check_Vs_profile_format (as_pyobj t) with
  | Err e => Err e
  | Ok _ =>
    let! inp := prepare_inputs t s in
    let p := in_profile inp in
    let! cs := map_res (layer_curve cm) (removelast p) in
    if (max_iter <? -1)%Z then Err ValueError
    else if (max_iter =? -1)%Z then Err IndexError
    else
      let! (m, r) := iterate inp cs b Rg tol verbose (Z.to_nat max_iter) (initial p) None in
      post inp (set_damping p m) (length (in_A inp)) r (calc_stress (elays p m) (rs_gamma r))
  end.

(** ** check_layer_count, helper_simulations.py:46-63
    [G], [xi] and [c] are the numbers of layers of the arguments given. *)
Definition too_few (n : option nat) (m : R) : bool := match n with None => false | Some n => Rltb (INR n) m end.
Definition check_layer_count (mats : list R) (G xi c : option nat) : res unit :=
  match mats with
  | [] => Err ValueError
  | x :: l => let m := fold_left Rmax l x in
      if too_few G m then Err ValueError
      else if too_few xi m then Err ValueError
      else if too_few c m then Err ValueError else Ok tt
  end.
