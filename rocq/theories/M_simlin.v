(** Model of the frequency-domain simulations of helper_simulations.py:66-930:
    [linear], [equiv_linear] and their helpers.  A matrix "time (or frequency) by
    layer" is a list of columns, one per layer.  Division by a vanishing time step,
    damping or modulus (inf or NaN in the code) is outside the model. *)
From Coq Require Import Reals List Bool ZArith Lia Lra.
From Coquelicot Require Import Complex.
From Coq Require Import List.
From Verif Require Import Base M_generic M_profile M_vs_profile M_motion M_interp M_dft M_spectra M_linear.
Import ListNotations.
Open Scope R_scope.

Inductive boundary := Elastic | Rigid.

(** ** _prepare_inputs (helper_simulations.py:475-581) *)

(** Lines 526-550: half the input, padded to an odd length. *)
Definition pad_odd (x : list R) : list R := if Nat.even (length x) then x ++ [last x 0] else x.
Definition pad_time (t : list R) (dt : R) : list R := if Nat.even (length t) then t ++ [last t 0 + dt] else t.
Definition incident (s : signal) : list R := map (fun a => a / 2) (vals s).

(** A layer of the re-discretised profile: thickness, modulus, damping, density. *)
Record elay := mkelay { e_h : R; e_G : R; e_D : R; e_rho : R }.

(** A row of a five-column profile, as [stratify] sees it. *)
Definition row_of (r : list R) : row := mkrow (cell 0 r) (cell 1 r) (skipn 2 r).

(** Lines 556-566; the material numbers are used by [equiv_linear] only. *)
Definition elay_of (r : row) : elay :=
  mkelay (r_h r) (nth 1 (r_rest r) 0 * r_vs r ^ 2) (nth 0 (r_rest r) 0) (nth 1 (r_rest r) 0).
Definition mat_of (r : row) : Z := (Int_part (nth 2 (r_rest r) 0%R) - 1)%Z.

Record inputs := mkinputs {
  in_even : bool;            (* flag == 0 *)
  in_profile : list row;
  in_t : list R; in_dt : R; in_A : list C }.
Definition prepare_inputs (t : table) (s : signal) : res inputs :=
  let! dt := first_step s in
  let acc := pad_odd (incident s) in
  let! p := stratify (map row_of (t_rows t)) in
  if Nat.eqb (t_ncol t) 2 then Err IndexError
  else Ok (mkinputs (Nat.even (length s)) p (pad_time (times s) dt) dt (dft (map RtoC acc))).

(** ** _lin_resp_every_layer (helper_simulations.py:584-761) *)
Definition vs_star_e (l : elay) : C :=
  csqrt (Cdiv (Cmult (RtoC (e_G l)) (Cplus (RtoC 1) (Cmult (RtoC 2) (Cmult Ci (RtoC (e_D l)))))) (RtoC (e_rho l))).
Definition alpha_e (l1 l2 : elay) : C :=
  Cdiv (Cmult (RtoC (e_rho l1)) (vs_star_e l1)) (Cmult (RtoC (e_rho l2)) (vs_star_e l2)).

(** Lines 660-669: with a rigid boundary the last ratio is set to zero (an empty
    array raises IndexError). *)
Definition alphas (b : boundary) (ls : list elay) : res (list C) :=
  let al := map (fun p => alpha_e (fst p) (snd p)) (combine ls (tl ls)) in
  match b with
  | Elastic => Ok al
  | Rigid => match al with [] => Err IndexError | _ => Ok (removelast al ++ [RtoC 0]) end
  end.

(** Lines 681-696, at one circular frequency: the amplitudes of all layers. *)
Definition k_e (omega : R) (l : elay) : C := Cmult (RtoC omega) (Cdiv (RtoC 1) (vs_star_e l)).
Fixpoint amps (omega : R) (ls : list elay) (al : list C) (A B : C) : list (C * C) :=
  match ls, al with
  | l :: ls', a :: al' =>
      let ep := cexp (Cmult (Cmult Ci (k_e omega l)) (RtoC (e_h l))) in
      let em := cexp (Cmult (Cmult (Copp Ci) (k_e omega l)) (RtoC (e_h l))) in
      let half := RtoC (1 / 2) in
      let A' := Cplus (Cmult (Cmult (Cmult half A) (Cplus (RtoC 1) a)) ep) (Cmult (Cmult (Cmult half B) (Cminus (RtoC 1) a)) em) in
      let B' := Cplus (Cmult (Cmult (Cmult half A) (Cminus (RtoC 1) a)) ep) (Cmult (Cmult (Cmult half B) (Cplus (RtoC 1) a)) em) in
      (A, B) :: amps omega ls' al' A' B'
  | _, _ => [(A, B)]
  end.
(** Line 701: motion at the top of layer [k] over the upgoing wave in the last one. *)
Definition H_at (omega : R) (ls : list elay) (al : list C) (k : nat) : C :=
  let ws := amps omega ls al (RtoC 1) (RtoC 1) in
  let w := nth k ws (RtoC 0, RtoC 0) in
  Cdiv (Cplus (fst w) (snd w)) (fst (last ws (RtoC 0, RtoC 0))).

(** Lines 642-652 and 698-709: fifteen times more frequencies, mirrored, every
    fifteenth kept.  [N] is the (odd) number of samples. *)
Definition oversample : nat := 15.
Definition dense_freq (N : nat) (dt : R) : list R :=
  let freq i := INR (S i) / (INR N * dt) in
  let df_ := (freq 1%nat - freq O) / INR oversample in
  linspace df_ (freq (N - 1)%nat) (N * oversample).
Definition set_real_head (l : list C) : list C :=
  match l with [] => [] | z :: l' => RtoC (Re z) :: l' end.
Definition H_col (N : nat) (dt : R) (ls : list elay) (al : list C) (k : nat) : list C :=
  let half := ((N * oversample + 1) / 2)%nat in
  let ss := set_real_head (map (fun f => H_at (2 * PI * f) ls al k) (firstn half (dense_freq N dt))) in
  every oversample (ss ++ map Cconj (rev (tl ss))).

(** Lines 735-747: acceleration, velocity, displacement of one layer. *)
Definition accel_col (H A : list C) : list R := map Re (idft (map (fun p => Cmult (fst p) (snd p)) (combine H A))).
Definition integrate (dt : R) (x : list R) : list R := map (fun v => v * dt) (cumsum x).
Definition detrend_end (d : list R) : list R :=
  map (fun i => nth i d 0 - INR (S i) / (INR (length d) + 1) * last d 0) (seq 0 (length d)).
(** Lines 749-755. *)
Definition strain_col (d1 d2 : list R) (h : R) : list R := map (fun p => (fst p - snd p) / h) (combine d1 d2).

Record response := mkresponse {
  rs_H : list (list C); rs_a : list (list R); rs_v : list (list R); rs_d : list (list R);
  rs_gamma : list (list R); rs_eff : list R }.
Definition lin_resp (N : nat) (dt : R) (ls : list elay) (b : boundary) (A : list C) (R_gamma : R) : res response :=
  let! al := alphas b ls in
  let n := length ls in
  let H := map (H_col N dt ls al) (seq 0 n) in
  let a := map (fun Hk => accel_col Hk A) H in
  let v := map (integrate dt) a in
  let d := map (fun x => detrend_end (integrate dt x)) v in
  let g := map (fun k => strain_col (nth k d []) (nth (S k) d []) (e_h (nth k ls (mkelay 0 0 0 0)))) (seq 0 (n - 1)) in
  Ok (mkresponse H a v d g (map (fun s => R_gamma * max_abs s) g)).

(** ** _calc_stress (helper_simulations.py:764-807).  For a profile without soil layer the
    code transforms an array without columns; the model takes this to succeed. *)
Definition stress_col (l : elay) (g : list R) : list R :=
  let N := length g in
  let half := ((N + 1) / 2)%nat in
  let m := Cmult (RtoC (e_G l)) (Cplus (RtoC 1) (Cmult (RtoC 2) (Cmult Ci (RtoC (e_D l))))) in
  let first := map (fun z => Cmult z m) (firstn half (dft (map RtoC g))) in
  map Re (idft (set_real_head (first ++ rev (map Cconj (tl first))))).
Definition calc_stress (ls : list elay) (g : list (list R)) : list (list R) :=
  map (fun p => stress_col (fst p) (snd p)) (combine (removelast ls) g).

(** ** _post_processing (helper_simulations.py:810-930) *)
Record simres := mksimres {
  sr_profile : list row; sr_freq : list R; sr_tf : list C; sr_surface : signal;
  sr_a : list (list R); sr_v : list (list R); sr_d : list (list R);
  sr_gamma : list (list R); sr_tau : list (list R);
  sr_max_avd : list (R * (R * R * R)); sr_max_gt : list (R * (R * R)) }.
Definition trim {A} (even : bool) (l : list A) : list A := if even then removelast l else l.
(** [np.column_stack] of columns of different lengths raises ValueError (the
    mid-points are as many as the strains only when the last thickness is zero). *)
Definition post (inp : inputs) (p : list row) (N : nat) (r : response) (tau : list (list R)) : res simres :=
  let ev := in_even inp in
  let half := ((N + 1) / 2)%nat in
  let m := if ev then (half - 1)%nat else half in
  let freq := map (fun i => INR (S i) / (INR N * in_dt inp)) (seq 0 N) in
  let a := map (trim ev) (rs_a r) in
  let v := map (trim ev) (rs_v r) in
  let d := map (trim ev) (rs_d r) in
  let g := map (trim ev) (rs_gamma r) in
  let s := map (trim ev) tau in
  let h := map r_h p in
  let! zb := thk2dep h false in
  let! zm := thk2dep h true in
  let avd := combine (combine (map max_abs a) (map max_abs v)) (map max_abs d) in
  let gt := combine (map max_abs g) (map max_abs s) in
  if negb (Nat.eqb (length zm) (length gt)) then Err ValueError
  else Ok (mksimres p (firstn m freq) (map (fun z => Cdiv z (RtoC 2)) (firstn m (nth 0 (rs_H r) [])))
             (combine (trim ev (in_t inp)) (nth 0 a []))
             a v d g s (combine zb avd) (combine zm gt)).

(** ** linear (helper_simulations.py:66-221) *)
Definition linear (t : table) (s : signal) (b : boundary) : res simres :=
  match check_Vs_profile_format (as_pyobj t) with
  | Err e => Err e
  | Ok _ =>
    let! inp := prepare_inputs t s in
    let ls := map elay_of (in_profile inp) in
    let N := length (in_A inp) in
    let! r := lin_resp N (in_dt inp) ls b (in_A inp) (65 / 100) in
    post inp (in_profile inp) N r (calc_stress ls (rs_gamma r))
  end.
