(** Model of the elastic response spectra of helper_site_response.py:485-742.
    The record is a finite two-column float array (what the check of line 545
    accepts).  Periods are positive and the damping is in [0, 1): outside that range
    the code computes NaN, which this model does not follow. *)
From Coq Require Import Reals List Bool ZArith Lia Lra.
From Verif Require Import Base M_generic M_motion M_soil M_interp M_pool.
Import ListNotations.
Open Scope R_scope.

(** [l[::k]] for k >= 1. *)
Fixpoint every_from {A} (k j : nat) (l : list A) : list A :=
  match l with
  | [] => []
  | x :: l' => match j with O => x :: every_from k (k - 1) l' | S j' => every_from k j' l' end
  end.
Definition every {A} (k : nat) (l : list A) : list A := every_from k 0 l.

(** [(t - np.roll(t, 1))[1:]] (lines 550-551). *)
Definition time_steps (t : list R) : list R := map (fun p => snd p - fst p) (combine t (tl t)).

(** helper_site_response.py:580-645: the coefficients of Table 5.2.1. *)
Record coef := mkcoef { cA : R; cB : R; cC : R; cD : R; cA' : R; cB' : R; cC' : R; cD' : R }.
Definition chopra (wn xi dt : R) : coef :=
  let sq := sqrt (1 - xi * xi) in
  let wd := wn * sq in
  let e := exp (- xi * wn * dt) in
  let sn := sin (wd * dt) in
  let cs := cos (wd * dt) in
  mkcoef
    (e * (xi / sq * sn + cs))
    (e * (1 / wd * sn))
    (1 / (wn * wn) * (2 * xi / wn / dt
       + e * (((1 - 2 * (xi * xi)) / wd / dt - xi / sq) * sn - (1 + 2 * xi / wn / dt) * cs)))
    (1 / (wn * wn) * (1 - 2 * xi / wn / dt
       + e * ((2 * (xi * xi) - 1) / wd / dt * sn + 2 * xi / wn / dt * cs)))
    (- e * (wn / sq * sn))
    (e * (cs - xi / sq * sn))
    (1 / (wn * wn) * (- 1 / dt + e * ((wn / sq + xi / dt / sq) * sn + 1 / dt * cs)))
    (1 / (wn * wn) / dt * (1 - e * (xi / sq * sn + cs))).

(** helper_site_response.py:718-729: one pass of the loop of [_time_stepping]. *)
Definition advance (c : coef) (s : R * R) (a0 a1 : R) : R * R :=
  (fst s * cA c + snd s * cB c + -1 * a0 * cC c + -1 * a1 * cD c,
   fst s * cA' c + snd s * cB' c + -1 * a0 * cC' c + -1 * a1 * cD' c).

(** helper_site_response.py:715-729: displacements and velocities of all samples,
    starting from rest. *)
Fixpoint march (c : coef) (s : R * R) (a : list R) : list (R * R) :=
  match a with
  | [] => []
  | a0 :: a' => s :: match a' with [] => [] | a1 :: _ => march c (advance c s a0 a1) a' end
  end.

(** [np.max(np.abs(x))] of a non-empty array. *)
Definition max_abs (l : list R) : R := fold_right Rmax 0 (map Rabs l).

(** What [_time_stepping] returns for one period. *)
Record peaks := mkpeaks { p_SA : R; p_SV : R; p_SD : R; p_PSA : R; p_PSV : R }.

(** helper_site_response.py:711-742 [_time_stepping]. *)
Definition time_stepping (wn xi dt : R) (a : list R) : peaks :=
  let uv := march (chopra wn xi dt) (0, 0) a in
  let udd := map (fun p => - (2 * wn * xi * snd (fst p) + wn * wn * fst (fst p) + snd p)) (combine uv a) in
  let utdd := map (fun p => fst p + snd p) (combine udd a) in
  let u_max := max_abs (map fst uv) in
  let ud_max := max_abs (map snd uv) in
  let psv := u_max * wn in
  mkpeaks (max_abs utdd) ud_max u_max (psv * wn) psv.

(** Serial loop or pool; the scheduler's completion order is [order]
    (lines 647-690).  [None] in a slot cannot happen when all tasks finish. *)
Definition run_periods (f : R -> peaks) (wns : list R) (parallel : option (list nat)) : list (option peaks) :=
  match parallel with
  | None => map (fun w => Some (f w)) wns
  | Some order => pool_map f wns order
  end.

(** The returned tuple. *)
Record spectra := mkspectra { s_Tn : list R; s_rows : list (option peaks); s_fn : list R }.

(** helper_site_response.py:485-707 [response_spectra]; [k = 0] is a zero slice step;
    line 692: unpacking the transpose of an empty result raises ValueError. *)
Definition response_spectra (s : signal) (Tmin Tmax : R) (n : nat) (xi : R) (k : nat)
    (parallel : option (list nat)) : res spectra :=
  if Nat.eqb k 0 then Err ValueError
  else
    let t := every k (times s) in
    let a := every k (vals s) in
    let! t1 := get t 1 in
    let! t0 := get t 0 in
    if negb (forallb (fun d => Rltb (d - (t1 - t0)) (1 / 10000000)) (time_steps t)) then Err ValueError
    else
      let dt := t1 - t0 in
      let Tn := logspace (log10 Tmin) (log10 Tmax) n in
      let wns := map (fun T => 2 * PI / T) Tn in
      if Nat.eqb n 0 then Err ValueError
      else Ok (mkspectra Tn (run_periods (fun w => time_stepping w xi dt a) wns parallel)
                 (map (fun T => 1 / T) Tn)).
