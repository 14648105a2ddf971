(** C105: peaks, scaling, unit conversion, integration and Arias intensity in double
    precision. *)
From Coq Require Import Reals List Bool ZArith Lia Lra Psatz QArith Qpower Qreals Ratan Machin.
From Flocq Require Import Core IEEE754.BinarySingleNaN Plus_error Relative.
From Verif Require Import Base M_float P_float.
Import ListNotations.
Open Scope R_scope.

Definition finite (a : list f64) : Prop := Forall (fun x => fin x = true) a.
(** The largest absolute value, specified. *)
Definition is_peak (a : list f64) (p : R) : Prop := (exists x, In x a /\ p = Rabs (val x)) /\ forall x, In x a -> Rabs (val x) <= p.

Lemma fabs_ok x : fin (fabs x) = fin x /\ val (fabs x) = Rabs (val x).
Proof. Transparent fabs. split; [apply (is_finite_Babs 53 1024)|apply (B2R_Babs 53 1024)]. Qed.
Opaque fabs.
Lemma fin_not_nan x : fin x = true -> fnan x = false.
Proof. destruct x as [s|[|]| |s m e B]; intros H; try discriminate H; reflexivity. Qed.
Lemma fmax_ok x y : fin x = true -> fin y = true -> fin (fmax x y) = true /\ val (fmax x y) = Rmax (val x) (val y).
Proof.
  intros Fx Fy. unfold fmax. rewrite (fin_not_nan x Fx), (fin_not_nan y Fy). destruct (fle x y) eqn:E.
  - apply fle_val in E; auto. rewrite Rmax_right by exact E. auto.
  - split; [exact Fx|]. rewrite Rmax_left; [reflexivity|]. apply Rnot_lt_le. intros C. assert (fle x y = true) by (apply fle_val; auto; lra). congruence.
Qed.
Lemma fold_max r m : finite r -> fin m = true -> 0 <= val m ->
  fin (fold_left fmax (map fabs r) m) = true /\
  (forall x, In x r -> Rabs (val x) <= val (fold_left fmax (map fabs r) m)) /\ val m <= val (fold_left fmax (map fabs r) m) /\
  (val (fold_left fmax (map fabs r) m) = val m \/ exists x, In x r /\ val (fold_left fmax (map fabs r) m) = Rabs (val x)).
Proof.
  revert m. induction r as [|x r IH]; intros m Fr Fm Pm; cbn [map fold_left].
  - split; [exact Fm|]. split; [intros y []|]. split; [lra|left; reflexivity].
  - inversion Fr as [|? ? Fx Fr']; subst. destruct (fabs_ok x) as [Fa Va]. rewrite Fx in Fa. destruct (fmax_ok m (fabs x) Fm Fa) as [Fn Vn]. rewrite Va in Vn.
    destruct (IH (fmax m (fabs x)) Fr' Fn) as (F & A & B & C). { rewrite Vn. eapply Rle_trans; [exact Pm|apply Rmax_l]. }
    set (M := fold_left fmax (map fabs r) (fmax m (fabs x))) in *. split; [exact F|]. rewrite Vn in B, C.
    pose proof (Rmax_l (val m) (Rabs (val x))). pose proof (Rmax_r (val m) (Rabs (val x))). split; [|split; [lra|]].
    + intros y [<-|Hy]; [lra|apply A, Hy].
    + destruct C as [C|(y & Hy & C)]; [|right; exists y; split; [right; exact Hy|exact C]].
      destruct (Rmax_spec (val m) (Rabs (val x))) as [[_ E]|[_ E]] || (unfold Rmax in C; destruct (Rle_dec (val m) (Rabs (val x)))).
      * right. exists x. split; [left; reflexivity|exact C].
      * left. exact C.
Qed.
(** The peak is exact. *)
Theorem C105_peak : forall a, finite a -> a <> [] -> exists p, peak_f a = Ok p /\ fin p = true /\ is_peak a (val p).
Proof.
  intros a F Ne. destruct a as [|x r]; [contradiction|]. inversion F as [|? ? Fx Fr]; subst. destruct (fabs_ok x) as [Fa Va]. rewrite Fx in Fa.
  destruct (fold_max r (fabs x) Fr Fa) as (G & A & B & C). { rewrite Va. apply Rabs_pos. }
  eexists. split; [reflexivity|]. split; [exact G|]. rewrite Va in B, C. split.
  - destruct C as [C|(y & Hy & C)]; [exists x; split; [left; reflexivity|exact C]|exists y; split; [right; exact Hy|exact C]].
  - intros y [<-|Hy]; [exact B|apply A, Hy].
Qed.
Lemma peak_unique a p q : is_peak a p -> is_peak a q -> p = q.
Proof. intros [(x & Hx & Ex) A] [(y & Hy & Ey) B]. specialize (A y Hy). specialize (B x Hx). lra. Qed.
Lemma fmax_nan x y : fnan x = true \/ fnan y = true -> fnan (fmax x y) = true.
Proof. unfold fmax. intros [H|H]; destruct (fnan x) eqn:E; auto; try congruence. rewrite H. exact H. Qed.
(** A NaN anywhere makes the peak NaN. *)
Theorem C105_peak_nan : forall a, Exists (fun x => fnan x = true) a -> exists p, peak_f a = Ok p /\ fnan p = true.
Proof.
  intros a H. destruct a as [|x r]; [inversion H|]. eexists. split; [reflexivity|].
  assert (G : forall r m, fnan m = true \/ Exists (fun x => fnan x = true) r -> fnan (fold_left fmax (map fabs r) m) = true).
  { clear. induction r as [|y r IH]; intros m [H|H]; cbn [map fold_left]; try (inversion H; fail); auto.
    - apply IH. left. apply fmax_nan. auto.
    - inversion H as [? ? Hy|? ? Hr]; subst; apply IH; [left; apply fmax_nan; right|right; exact Hr]. destruct y as [s|[|]| |s m' e B]; try discriminate Hy. vm_compute. reflexivity. }
  apply G. inversion H as [? ? Hx|? ? Hr]; subst; [left|right; exact Hr]. destruct x as [s|[|]| |s m' e B]; try discriminate Hx. vm_compute. reflexivity.
Qed.

(** Scaling by a factor: the peak of the scaled record is the peak times the factor, rounded
    once. *)
Theorem C105_scaled_peak : forall a f b p, finite a -> a <> [] -> fin f = true -> scale_f f None a = Ok b -> finite b -> is_peak a p ->
  is_peak b (rnd (p * Rabs (val f))).
Proof.
  intros a f b p Fa Ne Ff E Fb [(x & Hx & Ex) A]. unfold scale_f in E. cbn [bind] in E.
  assert (Q : b = map (fun x => fmul x f) a) by (symmetry; exact (f_equal (fun x => match x with Ok y => y | Err _ => [] end) E)). subst b. clear E.
  assert (V : forall y, In y a -> Rabs (val (fmul y f)) = rnd (Rabs (val y) * Rabs (val f))).
  { intros y Hy. unfold finite in Fb. rewrite Forall_forall in Fb. rewrite (fmul_val y f) by (apply Fb, (in_map (fun x => fmul x f)), Hy). rewrite <- rnd_abs, Rabs_mult. reflexivity. }
  split.
  - exists (fmul x f). split; [apply (in_map (fun x => fmul x f)), Hx|]. rewrite (V x Hx), Ex. reflexivity.
  - intros z Hz. apply in_map_iff in Hz as (y & <- & Hy). rewrite (V y Hy). apply rnd_mono. apply Rmult_le_compat_r; [apply Rabs_pos|apply A, Hy].
Qed.

(** Scaling to a target: the reported peak in g is the target up to five units of 2^-53, if
    nothing overflows or underflows ... *)
Definition normal (r : R) : Prop := bpow radix2 (-1022) <= Rabs r.
Lemma g981_ok : fin g981 = true /\ 9 < val g981 < 10.
Proof.
  destruct (lit_ok 5522539043063071 (-49) ltac:(cbn; lia) ltac:(lia)) as [F V]. split; [exact F|]. unfold g981. rewrite V.
  replace (bpow radix2 (-49)) with (/ 562949953421312) by (rewrite bpow_opp || reflexivity). lra.
Qed.
Theorem C105_target : forall a T p f b q, finite a -> a <> [] -> fin T = true -> 0 < val T ->
  peak_f a = Ok p -> 0 < val p -> f = fdiv T (to_g p) -> scale_f f0 (Some T) a = Ok b -> finite b -> peak_f b = Ok q ->
  fin (to_g p) = true -> fin f = true -> fin (to_g q) = true ->
  normal (val p / val g981) -> normal (val T / val (to_g p)) -> normal (val p * val f) -> normal (val q / val g981) ->
  Rabs (val (to_g q) - val T) <= 5 * ueps * val T.
Proof.
  intros a T p f b q Fa Ne FT PT Ep Pp Ef Eb Fb Eq F1 F2 F3 N1 N2 N3 N4. destruct g981_ok as [Fg Vg].
  assert (Sb : scale_f f None a = Ok b) by (unfold scale_f in *; rewrite Ep in Eb; cbn [bind] in *; rewrite Ef; exact Eb).
  destruct (C105_peak a Fa Ne) as (p' & Ep' & Fp & Kp). rewrite Ep in Ep'. injection Ep' as <-.
  assert (Neb : b <> []). { unfold scale_f in Sb. cbn [bind] in Sb. injection Sb as <-. destruct a; [contradiction|discriminate]. }
  destruct (C105_peak b Fb Neb) as (q' & Eq' & Fq & Kq). rewrite Eq in Eq'. injection Eq' as <-.
  pose proof (C105_scaled_peak a f b (val p) Fa Ne F2 Sb Fb Kp) as K2. pose proof (peak_unique _ _ _ Kq K2) as Vq.
  assert (V1 : val (to_g p) = rnd (val p / val g981)) by (apply fdiv_val; [lra|exact F1]).
  assert (P1 : 0 < val p / val g981) by (apply Rmult_lt_0_compat; [exact Pp|apply Rinv_0_lt_compat; lra]).
  destruct (rnd_rel _ N1) as (e1 & He1 & E1). pose proof ueps_small as Us. pose proof ueps_pos as U. apply Rabs_le_inv in He1.
  assert (P2 : 0 < val (to_g p)) by (rewrite V1, E1; nra).
  assert (V2 : val f = rnd (val T / val (to_g p))) by (rewrite Ef; apply fdiv_val; [lra|rewrite <- Ef; exact F2]).
  destruct (rnd_rel _ N2) as (e2 & He2 & E2). apply Rabs_le_inv in He2.
  assert (P3 : 0 < val T / val (to_g p)) by (apply Rmult_lt_0_compat; [exact PT|apply Rinv_0_lt_compat, P2]).
  assert (P4 : 0 < val f) by (rewrite V2, E2; nra). rewrite (Rabs_pos_eq (val f)) in Vq by lra.
  destruct (rnd_rel _ N3) as (e3 & He3 & E3). apply Rabs_le_inv in He3.
  assert (V4 : val (to_g q) = rnd (val q / val g981)) by (apply fdiv_val; [lra|exact F3]).
  destruct (rnd_rel _ N4) as (e4 & He4 & E4). apply Rabs_le_inv in He4.
  assert (R1 : val (to_g q) = val T * ((1 + e2) * (1 + e3) * (1 + e4) / (1 + e1))).
  { rewrite V4, E4, Vq, E3, V2, E2, V1, E1. field. split; [lra|]. split; lra. }
  rewrite R1. set (k := (1 + e2) * (1 + e3) * (1 + e4) / (1 + e1)).
  assert (K : k * (1 + e1) = (1 + e2) * (1 + e3) * (1 + e4)) by (unfold k; field; lra).
  assert (Uv : ueps <= / 100). { unfold ueps. apply Rinv_le; [lra|]. simpl. lra. }
  assert (A1 : (1 - ueps) * (1 - ueps) * (1 - ueps) <= (1 + e2) * (1 + e3) * (1 + e4)) by (repeat apply Rmult_le_compat; nra).
  assert (A2 : (1 + e2) * (1 + e3) * (1 + e4) <= (1 + ueps) * (1 + ueps) * (1 + ueps)) by (repeat apply Rmult_le_compat; nra).
  assert (B1 : (1 - 5 * ueps) * (1 + ueps) <= (1 - ueps) * (1 - ueps) * (1 - ueps)) by nra.
  assert (B2 : (1 + ueps) * (1 + ueps) * (1 + ueps) <= (1 + 5 * ueps) * (1 - ueps)) by nra.
  assert (C1 : 1 - 5 * ueps <= k) by (apply Rmult_le_reg_r with (1 + e1); [lra|]; rewrite K; nra).
  assert (C2 : k <= 1 + 5 * ueps) by (apply Rmult_le_reg_r with (1 + e1); [lra|]; rewrite K; nra).
  replace (val T * k - val T) with ((k - 1) * val T) by ring. rewrite Rabs_mult, (Rabs_pos_eq (val T)) by lra.
  apply Rmult_le_compat_r; [lra|]. apply Rabs_le. lra.
Qed.
(** ... but not always the target itself: peak 11/1024 m/s/s, target 0.2 g. *)
Definition d02 : f64 := lit 7205759403792794 (-55).
Theorem C105_target_refuted : exists a b q, finite a /\ scale_f f0 (Some d02) a = Ok b /\ peak_f b = Ok q /\ feq (to_g q) d02 = false /\ fin (to_g q) = true.
Proof.
  exists [lit 11 (-10)]. eexists. eexists. split; [constructor; [vm_compute; reflexivity|constructor]|].
  split; [reflexivity|]. split; [reflexivity|]. split; vm_compute; reflexivity.
Qed.

(** Unit conversion: a peak given in gal and reported in gal. *)
Lemma f100_ok : fin f100 = true /\ val f100 = 100.
Proof. destruct (lit_ok 100 0 ltac:(cbn; lia) ltac:(lia)) as [F V]. split; [exact F|]. unfold f100. rewrite V. change (bpow radix2 0) with 1. ring. Qed.
Theorem C105_units : forall x, fin x = true -> fin (to_cm (from_cm x)) = true -> normal (val x / 100) -> normal (val (from_cm x) * 100) ->
  Rabs (val (to_cm (from_cm x)) - val x) <= 3 * ueps * Rabs (val x).
Proof.
  intros x Fx F N1 N2. destruct f100_ok as [Fh Vh]. pose proof (fmul_fin_inv _ _ F) as [F1 _].
  assert (V1 : val (from_cm x) = rnd (val x / 100)) by (unfold from_cm; rewrite fdiv_val; [rewrite Vh; reflexivity|lra|exact F1]).
  assert (V2 : val (to_cm (from_cm x)) = rnd (val (from_cm x) * 100)) by (unfold to_cm; rewrite fmul_val by exact F; rewrite Vh; reflexivity).
  destruct (rnd_rel _ N1) as (e1 & He1 & E1), (rnd_rel _ N2) as (e2 & He2 & E2). rewrite V2, E2, V1, E1.
  replace (val x / 100 * (1 + e1) * 100 * (1 + e2) - val x) with ((e1 + e2 + e1 * e2) * val x) by field.
  rewrite Rabs_mult. apply Rmult_le_compat_r; [apply Rabs_pos|]. apply Rabs_le_inv in He1, He2. pose proof ueps_small. pose proof ueps_pos.
  assert (- ueps <= e1 * e2 <= ueps) by (split; nra). apply Rabs_le. lra.
Qed.
(** 0.23 gal are reported as 0.22999999999999998 gal. *)
Theorem C105_units_refuted : exists x, fin x = true /\ feq (to_cm (from_cm x)) x = false /\ feq x (lit 8286623314361713 (-55)) = true.
Proof. exists (lit 8286623314361713 (-55)). split; [vm_compute; reflexivity|]. split; vm_compute; reflexivity. Qed.

(** Integration: sample k of the integral is dt times the exact sum of the first k + 1 samples,
    up to rounding in proportion to the sum of the absolute values, and a term for underflow. *)
Fixpoint sumR (l : list f64) : R := match l with [] => 0 | x :: r => val x + sumR r end.
Fixpoint sumA (l : list f64) : R := match l with [] => 0 | x :: r => Rabs (val x) + sumA r end.
Lemma sumA_nonneg l : 0 <= sumA l. Proof. induction l as [|x l IH]; cbn; [lra|]. pose proof (Rabs_pos (val x)). lra. Qed.
Lemma cum_fin acc l k : (k < length l)%nat -> fin (nth k (cumsum_from acc l) f0) = true -> fin acc = true.
Proof.
  revert acc k. induction l as [|x l IH]; intros acc k L F; [cbn in L; lia|]. destruct k as [|k]; cbn [cumsum_from nth] in F.
  - apply (fadd_fin_inv acc x F).
  - apply (fadd_fin_inv acc x). apply (IH _ k); [cbn in L; lia|exact F].
Qed.
Lemma cum_error acc A B E l k : 1 <= E -> Rabs A <= B -> Rabs (val acc - A) <= (E - 1) * B -> finite l -> fin acc = true -> (k < length l)%nat ->
  fin (nth k (cumsum_from acc l) f0) = true ->
  Rabs (val (nth k (cumsum_from acc l) f0) - (A + sumR (firstn (S k) l))) <= (E * (1 + ueps) ^ S k - 1) * (B + sumA (firstn (S k) l)).
Proof.
  revert acc A B E k. induction l as [|x l IH]; intros acc A B E k HE HA H Fl Fa L F; [cbn in L; lia|]. inversion Fl as [|? ? Fx Fl']; subst.
  assert (Fs : fin (fadd acc x) = true). { destruct k as [|k]; cbn [cumsum_from nth] in F; [exact F|]. apply (cum_fin _ l k); [cbn in L; lia|exact F]. }
  assert (S1 : Rabs (val (fadd acc x) - (A + val x)) <= (E * (1 + ueps) - 1) * (B + Rabs (val x))).
  { rewrite (fadd_val acc x Fa Fx Fs). destruct (rnd_plus' (val acc) (val x) (val_dbl _) (val_dbl _)) as (e & He & ->). pose proof ueps_pos as U.
    pose proof (Rabs_pos (val x)) as X0. pose proof (Rabs_pos A) as A0.
    replace ((val acc + val x) * (1 + e) - (A + val x)) with ((val acc - A) + e * (val acc + val x)) by ring.
    eapply Rle_trans; [apply Rabs_triang|]. rewrite Rabs_mult.
    assert (T : Rabs (val acc + val x) <= E * (B + Rabs (val x))).
    { replace (val acc + val x) with ((val acc - A) + (A + val x)) by ring. eapply Rle_trans; [apply Rabs_triang|]. pose proof (Rabs_triang A (val x)).
      assert (Rabs (val x) <= E * Rabs (val x)) by nra. lra. }
    assert (M : Rabs e * Rabs (val acc + val x) <= ueps * (E * (B + Rabs (val x)))) by (apply Rmult_le_compat; [apply Rabs_pos|apply Rabs_pos|exact He|exact T]).
    assert (Rabs (val x) <= E * Rabs (val x)) by nra. lra. }
  destruct k as [|k].
  - cbn [cumsum_from nth firstn sumR sumA pow]. rewrite !Rplus_0_r, Rmult_1_r. exact S1.
  - cbn [cumsum_from nth] in F |- *. change (firstn (S (S k)) (x :: l)) with (x :: firstn (S k) l). cbn [sumR sumA]. pose proof ueps_pos.
    assert (HA' : Rabs (A + val x) <= B + Rabs (val x)) by (eapply Rle_trans; [apply Rabs_triang|lra]).
    specialize (IH (fadd acc x) (A + val x) (B + Rabs (val x)) (E * (1 + ueps)) k ltac:(nra) HA' S1 Fl' Fs ltac:(cbn in L; lia) F).
    rewrite <- !Rplus_assoc. replace (E * (1 + ueps) ^ S (S k)) with (E * (1 + ueps) * (1 + ueps) ^ S k) by (cbn [pow]; ring). exact IH.
Qed.
Lemma cumsum_error l k : finite l -> (k < length l)%nat -> fin (nth k (cumsum_f l) f0) = true ->
  Rabs (val (nth k (cumsum_f l) f0) - sumR (firstn (S k) l)) <= ((1 + ueps) ^ k - 1) * sumA (firstn (S k) l).
Proof.
  intros Fl L F. destruct l as [|x l]; [cbn in L; lia|]. inversion Fl as [|? ? Fx Fl']; subst. destruct k as [|k].
  - cbn [cumsum_f nth firstn sumR sumA pow]. rewrite !Rplus_0_r, Rminus_eq_0, Rabs_R0. lra.
  - cbn [cumsum_f nth] in F |- *. change (firstn (S (S k)) (x :: l)) with (x :: firstn (S k) l). cbn [sumR sumA].
    pose proof (cum_error x (val x) (Rabs (val x)) 1 l k ltac:(lra) ltac:(lra) ltac:(rewrite Rminus_eq_0, Rabs_R0; lra) Fl' Fx ltac:(cbn in L; lia) F) as C.
    rewrite Rmult_1_l in C. exact C.
Qed.
Lemma cumsum_length l : length (cumsum_f l) = length l.
Proof. destruct l as [|x l]; [reflexivity|]. cbn. f_equal. generalize x. induction l as [|y l IH]; intros z; cbn; [reflexivity|]. rewrite IH. reflexivity. Qed.
Theorem C105_integral : forall dt a k, finite a -> fin dt = true -> (k < length a)%nat -> fin (nth k (integrate_f dt a) f0) = true ->
  Rabs (val (nth k (integrate_f dt a) f0) - val dt * sumR (firstn (S k) a)) <= ((1 + ueps) ^ S k - 1) * (Rabs (val dt) * sumA (firstn (S k) a)) + / 2 * bpow radix2 (-1074).
Proof.
  intros dt a k Fa Fd L F. unfold integrate_f in *.
  assert (N : nth k (map (fun x => fmul x dt) (cumsum_f a)) f0 = fmul (nth k (cumsum_f a) f0) dt).
  { rewrite (nth_indep _ f0 (fmul f0 dt)) by (rewrite map_length, cumsum_length; exact L). apply (map_nth (fun x => fmul x dt)). }
  rewrite N in *. pose proof (fmul_fin_inv _ _ F) as [Fc _]. rewrite (fmul_val _ _ F). pose proof (cumsum_error a k Fa L Fc) as C.
  set (c := val (nth k (cumsum_f a) f0)) in *. set (S0 := sumR (firstn (S k) a)) in *. set (B := sumA (firstn (S k) a)) in *.
  assert (B0 : 0 <= B) by apply sumA_nonneg. assert (SB : Rabs S0 <= B).
  { unfold S0, B. generalize (firstn (S k) a). clear. intros l. induction l as [|x l IH]; cbn [sumR sumA]; [rewrite Rabs_R0; lra|]. eapply Rle_trans; [apply Rabs_triang|lra]. }
  destruct (relative_error_N_FLT'_ex radix2 (-1074) 53 eq_refl (fun z => negb (Z.even z)) (c * val dt)) as (e & t & He & Ht & _ & E).
  rewrite ueps_val in He. pose proof ueps_ratio as Ur. pose proof ueps_pos as U. change (rnd (c * val dt) = c * val dt * (1 + e) + t) in E. rewrite E.
  assert (P1 : 1 <= (1 + ueps) ^ k) by (apply pow_R1_Rle; lra). set (P := (1 + ueps) ^ k) in *.
  replace (c * val dt * (1 + e) + t - val dt * S0) with (val dt * (c - S0) + e * (c * val dt) + t) by ring.
  eapply Rle_trans; [apply Rabs_triang|]. apply Rplus_le_compat; [|exact Ht]. eapply Rle_trans; [apply Rabs_triang|]. rewrite !Rabs_mult.
  assert (Cc : Rabs c <= P * B). { replace c with ((c - S0) + S0) by ring. eapply Rle_trans; [apply Rabs_triang|]. lra. }
  pose proof (Rabs_pos (val dt)) as D0. pose proof (Rabs_pos c) as C0.
  assert (M1 : Rabs (val dt) * Rabs (c - S0) <= Rabs (val dt) * ((P - 1) * B)) by (apply Rmult_le_compat_l; [exact D0|exact C]).
  assert (M2 : Rabs e * (Rabs c * Rabs (val dt)) <= ueps * (P * B * Rabs (val dt))).
  { apply Rmult_le_compat; [apply Rabs_pos|apply Rmult_le_pos; assumption|lra|apply Rmult_le_compat_r; assumption]. }
  change ((1 + ueps) ^ S k) with ((1 + ueps) * P). lra.
Qed.
(** Displacement: dt times the exact sum of the exact velocities, up to the rounding of two
    integrations. *)
Definition sumUpto (f : nat -> R) (k : nat) : R := sum_f_R0 f k.
Lemma sumR_nth l k : (k < length l)%nat -> sumR (firstn (S k) l) = sumUpto (fun i => val (nth i l f0)) k.
Proof.
  revert k. assert (G : forall k, (k < length l)%nat -> sumR (firstn (S k) l) = sumR (firstn k l) + val (nth k l f0)).
  { clear. induction l as [|x l IH]; intros k L; [cbn in L; lia|]. destruct k as [|k]; [cbn; lra|]. change (firstn (S (S k)) (x :: l)) with (x :: firstn (S k) l). change (firstn (S k) (x :: l)) with (x :: firstn k l). cbn [sumR nth]. rewrite (IH k) by (cbn in L; lia). lra. }
  induction k as [|k IH]; intros L; rewrite G by exact L; [cbn; lra|]. rewrite IH by lia. reflexivity.
Qed.
Lemma sumA_nth l k : (k < length l)%nat -> sumA (firstn (S k) l) = sumUpto (fun i => Rabs (val (nth i l f0))) k.
Proof.
  revert k. assert (G : forall k, (k < length l)%nat -> sumA (firstn (S k) l) = sumA (firstn k l) + Rabs (val (nth k l f0))).
  { clear. induction l as [|x l IH]; intros k L; [cbn in L; lia|]. destruct k as [|k]; [cbn; lra|]. change (firstn (S (S k)) (x :: l)) with (x :: firstn (S k) l). change (firstn (S k) (x :: l)) with (x :: firstn k l). cbn [sumA nth]. rewrite (IH k) by (cbn in L; lia). lra. }
  induction k as [|k IH]; intros L; rewrite G by exact L; [cbn; lra|]. rewrite IH by lia. reflexivity.
Qed.
Lemma sumUpto_le f g k : (forall i, (i <= k)%nat -> f i <= g i) -> sumUpto f k <= sumUpto g k.
Proof. intros H. apply sum_Rle. exact H. Qed.
Lemma sumUpto_abs f k : Rabs (sumUpto f k) <= sumUpto (fun i => Rabs (f i)) k.
Proof. apply sum_f_R0_triangle. Qed.
Lemma sumUpto_lin a b f g c k : sumUpto (fun i => a * f i + b * g i + c) k = a * sumUpto f k + b * sumUpto g k + INR (S k) * c.
Proof. unfold sumUpto. induction k as [|k IH]; [cbn; lra|]. rewrite !tech5, IH, (S_INR (S k)). lra. Qed.
Theorem C105_displacement : forall dt a k, finite a -> fin dt = true -> finite (fst (num_int_f dt a)) -> (k < length a)%nat -> fin (nth k (snd (num_int_f dt a)) f0) = true ->
  Rabs (val (nth k (snd (num_int_f dt a)) f0) - val dt * sumUpto (fun i => val dt * sumR (firstn (S i) a)) k) <=
  ((1 + ueps) ^ (2 * S k) - 1) * (Rabs (val dt) * sumUpto (fun i => Rabs (val dt) * sumA (firstn (S i) a)) k) + ((1 + ueps) ^ S k * Rabs (val dt) * INR (S k) + 1) * (/ 2 * bpow radix2 (-1074)).
Proof.
  intros dt a k Fa Fd Fv L F. cbn [num_int_f fst snd] in *. set (v := integrate_f dt a) in *.
  assert (Lv : length v = length a) by (unfold v, integrate_f; rewrite map_length; apply cumsum_length).
  pose proof (C105_integral dt v k Fv Fd ltac:(lia) F) as E2. rewrite sumR_nth in E2 by lia. rewrite sumA_nth in E2 by lia.
  set (eta := / 2 * bpow radix2 (-1074)) in *. assert (eta0 : 0 <= eta) by (unfold eta; pose proof (bpow_gt_0 radix2 (-1074)); lra).
  set (P := (1 + ueps) ^ S k) in *. pose proof ueps_pos as U. assert (P1 : 1 <= P) by (apply pow_R1_Rle; lra).
  replace ((1 + ueps) ^ (2 * S k)) with (P * P) by (unfold P; rewrite <- pow_add; f_equal; lia).
  assert (E1 : forall i, (i <= k)%nat -> Rabs (val (nth i v f0) - val dt * sumR (firstn (S i) a)) <= (P - 1) * (Rabs (val dt) * sumA (firstn (S i) a)) + eta).
  { intros i Hi. assert (Fi : fin (nth i v f0) = true). { unfold finite in Fv. rewrite Forall_forall in Fv. apply Fv, nth_In. lia. }
    eapply Rle_trans; [apply (C105_integral dt a i Fa Fd ltac:(lia) Fi)|]. fold eta. apply Rplus_le_compat_r. apply Rmult_le_compat_r; [apply Rmult_le_pos; [apply Rabs_pos|apply sumA_nonneg]|].
    assert ((1 + ueps) ^ S i <= P) by (apply Rle_pow; [lra|lia]). lra. }
  set (A := fun i => Rabs (val dt) * sumA (firstn (S i) a)) in *. set (V := fun i => val dt * sumR (firstn (S i) a)) in *. set (w := fun i => val (nth i v f0)) in *.
  assert (VA : forall i, Rabs (V i) <= A i).
  { intros i. unfold V, A. rewrite Rabs_mult. apply Rmult_le_compat_l; [apply Rabs_pos|]. generalize (firstn (S i) a). clear. intros l. induction l as [|x l IH]; cbn [sumR sumA]; [rewrite Rabs_R0; lra|]. eapply Rle_trans; [apply Rabs_triang|lra]. }
  assert (E1' : forall i, (i <= k)%nat -> Rabs (w i - V i) <= (P - 1) * A i + eta) by exact E1.
  assert (S1 : sumUpto (fun i => Rabs (w i)) k <= P * sumUpto A k + INR (S k) * eta).
  { apply Rle_trans with (sumUpto (fun i => P * A i + 0 * A i + eta) k); [|rewrite sumUpto_lin; lra]. apply sumUpto_le. intros i Hi. specialize (E1' i Hi). specialize (VA i).
    replace (w i) with ((w i - V i) + V i) by ring. eapply Rle_trans; [apply Rabs_triang|]. lra. }
  assert (S2 : Rabs (sumUpto w k - sumUpto V k) <= (P - 1) * sumUpto A k + INR (S k) * eta).
  { replace (sumUpto w k - sumUpto V k) with (sumUpto (fun i => w i - V i) k) by (unfold sumUpto; apply minus_sum).
    eapply Rle_trans; [apply sumUpto_abs|]. apply Rle_trans with (sumUpto (fun i => (P - 1) * A i + 0 * A i + eta) k); [|rewrite sumUpto_lin; lra]. apply sumUpto_le. intros i Hi. specialize (E1' i Hi). lra. }
  fold w in E2. change (sumUpto (fun i => Rabs (val (nth i v f0))) k) with (sumUpto (fun i => Rabs (w i)) k) in E2. set (X := sumUpto A k) in *. set (Y := sumUpto (fun i => Rabs (w i)) k) in *.
  set (n := INR (S k)) in *. pose proof (Rabs_pos (val dt)) as D0. set (D := Rabs (val dt)) in *. assert (n0 : 0 <= n) by apply pos_INR.
  replace (val (nth k (integrate_f dt v) f0) - val dt * sumUpto V k) with ((val (nth k (integrate_f dt v) f0) - val dt * sumUpto w k) + val dt * (sumUpto w k - sumUpto V k)) by ring.
  eapply Rle_trans; [apply Rabs_triang|]. rewrite (Rabs_mult (val dt)). fold D.
  assert (M1 : (P - 1) * (D * Y) <= (P - 1) * (D * (P * X + n * eta))) by (apply Rmult_le_compat_l; [lra|]; apply Rmult_le_compat_l; lra).
  assert (M2 : D * Rabs (sumUpto w k - sumUpto V k) <= D * ((P - 1) * X + n * eta)) by (apply Rmult_le_compat_l; lra). lra.
Qed.

(** Arias intensity: it starts at 0, never decreases, and the normalised one ends with exactly
    1, if the last value is finite and not 0. *)
Lemma arias_c_ok : fin arias_c = true /\ 0 <= val arias_c.
Proof. split; [vm_compute; reflexivity|]. rewrite <- f0_val. apply fle_val; [reflexivity|vm_compute; reflexivity|vm_compute; reflexivity]. Qed.
Lemma arias_length acc dt a : length (arias_from acc dt a) = length a.
Proof. revert acc. induction a as [|x a IH]; intros acc; cbn; [reflexivity|rewrite IH; reflexivity]. Qed.
Lemma increment_ok dt x : 0 <= val dt -> fin (fmul (fmul arias_c (fmul x x)) dt) = true -> 0 <= val (fmul (fmul arias_c (fmul x x)) dt).
Proof.
  intros Pd F. pose proof (fmul_fin_inv _ _ F) as [F1 _]. pose proof (fmul_fin_inv _ _ F1) as [_ F2]. rewrite (fmul_val _ _ F), (fmul_val _ _ F1), (fmul_val _ _ F2).
  destruct arias_c_ok as [_ C]. apply rnd_nonneg, Rmult_le_pos; [|exact Pd]. apply rnd_nonneg, Rmult_le_pos; [exact C|]. apply rnd_nonneg. nra.
Qed.
Lemma arias_steps acc dt a : 0 <= val dt -> 0 <= val acc -> (exists d, fin (last (arias_from acc dt a) d) = true /\ a <> []) ->
  finite (arias_from acc dt a) /\ (forall i j, (i <= j < length a)%nat -> val acc <= val (nth i (arias_from acc dt a) f0) <= val (nth j (arias_from acc dt a) f0)).
Proof.
  intros Pd. revert acc. induction a as [|x a IH]; intros acc Pa (d & F & Ne); [contradiction|]. destruct a as [|y a].
  - cbn in F |- *. split; [constructor; [exact F|constructor]|]. intros i j L. cbn in L. assert (i = 0 /\ j = 0)%nat as [-> ->] by lia. lra.
  - set (inc := fmul (fmul arias_c (fmul x x)) dt). change (arias_from acc dt (x :: y :: a)) with (acc :: arias_from (fadd acc inc) dt (y :: a)) in *.
    assert (Fn : fin (fadd acc inc) = true).
    { assert (G : forall l s, fin (last (arias_from s dt (y :: l)) d) = true -> fin s = true).
      { clear. intros l. induction l as [|z l IHl] in y |- *; intros s F; [exact F|]. change (arias_from s dt (y :: z :: l)) with (s :: arias_from (fadd s (fmul (fmul arias_c (fmul y y)) dt)) dt (z :: l)) in F.
        apply (fadd_fin_inv s (fmul (fmul arias_c (fmul y y)) dt)). apply (IHl z). exact F. }
      apply (G a). exact F. }
    pose proof (fadd_fin_inv _ _ Fn) as [Fa Fi]. pose proof (increment_ok dt x Pd Fi) as Pi. fold inc in Pi.
    assert (La : val acc <= val (fadd acc inc)). { rewrite (fadd_val _ _ Fa Fi Fn). rewrite <- (rnd_id (val acc)) at 1 by apply val_dbl. apply rnd_mono. lra. }
    destruct (IH (fadd acc inc)) as [Ff M]; [lra|exists d; split; [exact F|discriminate]|].
    split; [constructor; [exact Fa|exact Ff]|]. intros i j L. destruct i as [|i], j as [|j]; try lia; cbn [nth].
    + lra.
    + pose proof (M j j ltac:(cbn in L |- *; lia)). lra.
    + pose proof (M i j ltac:(cbn in L |- *; lia)). lra.
Qed.
Lemma last_nth (l : list f64) d : l <> [] -> last l d = nth (length l - 1) l d.
Proof. intros Ne. destruct (exists_last Ne) as (l' & x & ->). rewrite last_last, app_length, app_nth2 by (cbn; lia). cbn. replace (length l' + 1 - 1 - length l')%nat with 0%nat by lia. reflexivity. Qed.
Theorem C105_arias : forall dt a, a <> [] -> fin dt = true -> 0 <= val dt -> fin (last (arias_f dt a) f0) = true ->
  length (arias_f dt a) = length a /\ nth 0 (arias_f dt a) f0 = f0 /\ finite (arias_f dt a) /\
  forall i j, (i <= j < length a)%nat -> 0 <= val (nth i (arias_f dt a) f0) <= val (nth j (arias_f dt a) f0).
Proof.
  intros dt a Ne Fd Pd F. split; [apply arias_length|]. split; [destruct a; [contradiction|reflexivity]|].
  destruct (arias_steps f0 dt a Pd ltac:(rewrite f0_val; lra)) as [Ff M]; [exists f0; split; [exact F|exact Ne]|]. rewrite f0_val in M. split; [exact Ff|exact M].
Qed.
Theorem C105_arias_normalised : forall dt a, a <> [] -> fin dt = true -> 0 <= val dt -> fin (last (arias_f dt a) f0) = true -> 0 < val (last (arias_f dt a) f0) ->
  finite (arias_norm_f dt a) /\ val (last (arias_norm_f dt a) f0) = 1 /\
  forall i j, (i <= j < length a)%nat -> 0 <= val (nth i (arias_norm_f dt a) f0) <= val (nth j (arias_norm_f dt a) f0) /\ val (nth j (arias_norm_f dt a) f0) <= 1.
Proof.
  intros dt a Ne Fd Pd F P. destruct (C105_arias dt a Ne Fd Pd F) as (Len & _ & Ff & M). unfold arias_norm_f. set (Ia := arias_f dt a) in *. set (pk := last Ia f0) in *.
  assert (NeI : Ia <> []) by (intros E; rewrite E in Len; destruct a; [contradiction|discriminate]).
  assert (Lk : pk = nth (length a - 1) Ia f0) by (unfold pk; rewrite (last_nth Ia f0 NeI), Len; reflexivity).
  assert (La : (0 < length a)%nat) by (destruct a; [contradiction|cbn; lia]).
  assert (Q : forall i, (i < length a)%nat -> fin (fdiv (nth i Ia f0) pk) = true /\ val (fdiv (nth i Ia f0) pk) = rnd (val (nth i Ia f0) / val pk) /\ 0 <= val (nth i Ia f0) / val pk <= 1).
  { intros i Li. pose proof (M i (length a - 1)%nat ltac:(lia)) as B. rewrite <- Lk in B.
    assert (R1 : 0 <= val (nth i Ia f0) / val pk <= 1).
    { split; [apply Rmult_le_pos; [lra|left; apply Rinv_0_lt_compat, P]|]. apply Rmult_le_reg_r with (val pk); [exact P|]. unfold Rdiv. rewrite Rmult_assoc, Rinv_l by lra. lra. }
    assert (D1 : dbl 1) by (change 1 with (bpow radix2 0); apply generic_format_bpow; unfold FLT_exp; lia).
    pose proof (rnd_between _ 0 1 dbl_0 D1 R1) as B1.
    destruct (fdiv_fin (nth i Ia f0) pk) as [G V]; [unfold finite in Ff; rewrite Forall_forall in Ff; apply Ff, nth_In; lia|lra| |auto].
    rewrite Rabs_pos_eq by lra. apply Rle_lt_trans with 1; [lra|]. change 1 with (bpow radix2 0). apply bpow_lt. lia. }
  assert (N : forall i, (i < length a)%nat -> nth i (map (fun x => fdiv x pk) Ia) f0 = fdiv (nth i Ia f0) pk).
  { intros i Li. rewrite (nth_indep _ f0 (fdiv f0 pk)) by (rewrite map_length, Len; exact Li). apply (map_nth (fun x => fdiv x pk)). }
  assert (D1 : dbl 1) by (change 1 with (bpow radix2 0); apply generic_format_bpow; unfold FLT_exp; lia).
  split; [|split].
  - apply Forall_forall. intros z Hz. apply (In_nth _ _ f0) in Hz as (i & Li & <-). rewrite map_length, Len in Li. rewrite (N i Li). apply Q, Li.
  - rewrite (last_nth _ f0) by (destruct Ia; [contradiction|discriminate]). rewrite map_length, Len, N by lia. rewrite <- Lk.
    pose proof (Q (length a - 1)%nat ltac:(lia)) as (_ & V & _). rewrite <- Lk in V. rewrite V. unfold Rdiv. rewrite Rinv_r by lra. apply rnd_id, D1.
  - intros i j L. rewrite !N by lia. destruct (Q i ltac:(lia)) as (_ & Vi & Bi), (Q j ltac:(lia)) as (_ & Vj & Bj). rewrite Vi, Vj.
    pose proof (M i j L) as Mij. split; [split; [apply rnd_nonneg; lra|]|].
    + apply rnd_mono, Rmult_le_compat_r; [left; apply Rinv_0_lt_compat, P|lra].
    + rewrite <- (rnd_id 1 D1) at 1. apply rnd_mono. lra.
Qed.
(** If the last value is 0, all normalised values are NaN; this happens not only for a zero
    record but also for a record so small that the squares underflow. *)
Lemma zero_val x : fin x = true -> val x = 0 -> exists s, x = B754_zero s.
Proof.
  destruct x as [s|[|]| |s m e B]; intros F V; try discriminate F; [exists s; reflexivity|]. exfalso.
  assert (is_finite_strict (B754_finite s m e B : f64) = true) as K by reflexivity. cbn in V. destruct s.
  - apply (Rlt_not_eq _ _ (F2R_lt_0 radix2 (Float radix2 (Zneg m) e) eq_refl) V).
  - apply (Rgt_not_eq _ _ (F2R_gt_0 radix2 (Float radix2 (Zpos m) e) eq_refl) V).
Qed.
Theorem C105_arias_nan : forall dt a, a <> [] -> fin dt = true -> 0 <= val dt -> fin (last (arias_f dt a) f0) = true -> val (last (arias_f dt a) f0) = 0 ->
  Forall (fun x => fnan x = true) (arias_norm_f dt a).
Proof.
  intros dt a Ne Fd Pd F Z0. destruct (C105_arias dt a Ne Fd Pd F) as (Len & _ & Ff & M). unfold arias_norm_f. set (Ia := arias_f dt a) in *.
  assert (NeI : Ia <> []) by (intros E; rewrite E in Len; destruct a; [contradiction|discriminate]).
  apply Forall_forall. intros z Hz. apply in_map_iff in Hz as (x & <- & Hx). unfold finite in Ff. rewrite Forall_forall in Ff. pose proof (Ff x Hx) as Fx.
  apply (In_nth _ _ f0) in Hx as (i & Li & <-). rewrite Len in Li. pose proof (M i (length a - 1)%nat ltac:(lia)) as B.
  rewrite <- Len, <- (last_nth Ia f0 NeI) in B. rewrite Z0 in B.
  destruct (zero_val _ Fx ltac:(lra)) as (s & ->). destruct (zero_val _ F Z0) as (s' & ->). destruct s, s'; vm_compute; reflexivity.
Qed.
Theorem C105_underflow : exists dt a, Forall (fun x => flt f0 x = true) a /\ a <> [] /\ Forall (fun x => fnan x = true) (arias_norm_f dt a).
Proof.
  exists (lit 1 (-7)), [lit 1 (-540); lit 3 (-541)]. split; [repeat (apply Forall_cons; [vm_compute; reflexivity|]); apply Forall_nil|]. split; [discriminate|].
  unfold arias_norm_f, arias_f. cbn [arias_from map last]. repeat (apply Forall_cons; [vm_compute; reflexivity|]); apply Forall_nil.
Qed.

Definition rec0 : list f64 := [lit 1 0; lit (-3) 0; lit 5 (-1)].
Example C105_instance : finite rec0 /\ (exists p, peak_f rec0 = Ok p /\ feq p (lit 3 0) = true) /\
  fin (last (arias_f (lit 1 (-7)) rec0) f0) = true /\ flt f0 (last (arias_f (lit 1 (-7)) rec0) f0) = true /\
  fin (nth 2 (integrate_f (lit 1 (-7)) rec0) f0) = true /\ feq (nth 2 (integrate_f (lit 1 (-7)) rec0) f0) (lit 1 (-8)) = true /\
  (exists b q, scale_f f0 (Some d02) rec0 = Ok b /\ finite b /\ peak_f b = Ok q /\ flt (lit 19 (-7)) (to_g q) = true /\ flt (to_g q) (lit 26 (-7)) = true) /\
  normal 1 /\ peak_f [] = Err ValueError.
Proof.
  split; [repeat (apply Forall_cons; [vm_compute; reflexivity|]); apply Forall_nil|].
  split; [eexists; split; [reflexivity|vm_compute; reflexivity]|]. do 4 (split; [vm_compute; reflexivity|]).
  split; [|split; [|reflexivity]].
  - eexists. eexists. split; [reflexivity|]. split; [repeat (apply Forall_cons; [vm_compute; reflexivity|]); apply Forall_nil|]. split; [reflexivity|]. split; vm_compute; reflexivity.
  - unfold normal. rewrite Rabs_R1. change 1 with (bpow radix2 0). apply bpow_le. lia.
Qed.

(** The hypotheses of [C105_target] hold for a peak of 3 m/s/s and a target of 0.2 g. *)
Lemma normal_of r : / 16 <= r -> normal r.
Proof.
  intros H. unfold normal. rewrite Rabs_pos_eq by lra. eapply Rle_trans; [|exact H]. change (/ 16) with (bpow radix2 (-4)). apply bpow_le. lia.
Qed.
Lemma dbl_pow2 e : (-1074 <= e)%Z -> dbl (bpow radix2 e).
Proof. intros H. apply generic_format_bpow. unfold FLT_exp. lia. Qed.
Lemma fdiv_range x y lo hi : fin x = true -> val y <> 0 -> dbl lo -> dbl hi -> 0 <= lo -> hi < top64 -> lo <= val x / val y <= hi -> fin (fdiv x y) = true /\ lo <= val (fdiv x y) <= hi.
Proof.
  intros Fx Hy L H L0 HT B. pose proof (rnd_between _ lo hi L H B) as R1. destruct (fdiv_fin x y Fx Hy) as [F V]; [rewrite Rabs_pos_eq; lra|]. rewrite V. auto.
Qed.
Lemma small_top r : r <= 4 -> r < top64.
Proof. intros H. apply Rle_lt_trans with 4; [exact H|]. change 4 with (bpow radix2 2). apply bpow_lt. lia. Qed.
Example C105_target_instance : exists p f b q, peak_f rec0 = Ok p /\ 0 < val p /\ f = fdiv d02 (to_g p) /\ scale_f f0 (Some d02) rec0 = Ok b /\ finite b /\ peak_f b = Ok q /\
  fin (to_g p) = true /\ fin f = true /\ fin (to_g q) = true /\ normal (val p / val g981) /\ normal (val d02 / val (to_g p)) /\ normal (val p * val f) /\ normal (val q / val g981) /\
  fin d02 = true /\ 0 < val d02.
Proof.
  destruct g981_ok as [Fg Vg]. assert (FR : finite rec0) by (repeat (apply Forall_cons; [vm_compute; reflexivity|]); apply Forall_nil).
  assert (Fd : fin d02 = true) by (vm_compute; reflexivity).
  assert (Vd : 19 / 100 <= val d02 <= 21 / 100).
  { unfold d02. rewrite (proj2 (lit_ok 7205759403792794 (-55) ltac:(cbn; lia) ltac:(lia))). change (bpow radix2 (-55)) with (/ 36028797018963968). lra. }
  destruct (C105_peak rec0 FR ltac:(discriminate)) as (p & Ep & Fp & Kp).
  assert (Vp : val p = 3).
  { destruct (lit_ok 3 0 ltac:(cbn; lia) ltac:(lia)) as [F3 V3]. change (bpow radix2 0) with 1 in V3. rewrite Rmult_1_r in V3. rewrite <- V3.
    apply (feq_val p (lit 3 0) Fp F3). unfold peak_f, rec0 in Ep. assert (E : p = fold_left fmax (map fabs [lit (-3) 0; lit 5 (-1)]) (fabs (lit 1 0))) by (symmetry; exact (f_equal (fun x => match x with Ok y => y | Err _ => f0 end) Ep)).
    rewrite E. vm_compute. reflexivity. }
  assert (Q1 : / 4 <= val p / val g981 <= / 2) by (rewrite Vp; split; (apply Rmult_le_reg_r with (val g981); [lra|]); unfold Rdiv; rewrite Rmult_assoc, Rinv_l by lra; lra).
  destruct (fdiv_range p g981 (/ 4) (/ 2) Fp ltac:(lra) (dbl_pow2 (-2) ltac:(lia)) (dbl_pow2 (-1) ltac:(lia)) ltac:(lra) (small_top (/ 2) ltac:(lra)) Q1) as [F1 B1]. fold (to_g p) in F1, B1.
  assert (Q2 : / 4 <= val d02 / val (to_g p) <= 1) by (split; (apply Rmult_le_reg_r with (val (to_g p)); [lra|]); unfold Rdiv; rewrite Rmult_assoc, Rinv_l by lra; lra).
  destruct (fdiv_range d02 (to_g p) (/ 4) 1 Fd ltac:(lra) (dbl_pow2 (-2) ltac:(lia)) (dbl_pow2 0 ltac:(lia)) ltac:(lra) (small_top 1 ltac:(lra)) Q2) as [F2 B2].
  set (f := fdiv d02 (to_g p)) in *. set (b := map (fun x => fmul x f) rec0).
  assert (Sb : scale_f f None rec0 = Ok b) by reflexivity.
  assert (Fb : finite b).
  { apply Forall_forall. intros z Hz. apply in_map_iff in Hz as (x & <- & Hx). pose proof (proj2 Kp x Hx) as Bx. rewrite Vp in Bx.
    apply fmul_fin; [unfold finite in FR; rewrite Forall_forall in FR; apply FR, Hx|exact F2|]. rewrite <- rnd_abs, Rabs_mult, (Rabs_pos_eq (val f)) by lra.
    pose proof (Rabs_pos (val x)) as X0. assert (P4 : 0 <= Rabs (val x) * val f <= 4).
    { split; [apply Rmult_le_pos; lra|]. apply Rle_trans with (3 * 1); [apply Rmult_le_compat; lra|lra]. }
    destruct (rnd_between _ 0 4 dbl_0 (dbl_pow2 2 ltac:(lia)) P4) as [_ R4]. apply small_top, R4. }
  pose proof (C105_scaled_peak rec0 f b (val p) FR ltac:(discriminate) F2 Sb Fb Kp) as K2. destruct (C105_peak b Fb ltac:(discriminate)) as (q & Eq & Fq & Kq).
  pose proof (peak_unique _ _ _ Kq K2) as Vq. rewrite (Rabs_pos_eq (val f)) in Vq by lra.
  assert (D : dbl (/ 2) /\ dbl 4) by (split; [apply (dbl_pow2 (-1)); lia|apply (dbl_pow2 2); lia]).
  assert (B3 : / 2 <= val q <= 4) by (rewrite Vq; apply rnd_between; [apply D|apply D|rewrite Vp; lra]).
  assert (B3' : 3 / 4 <= val q). { rewrite Vq. destruct (lit_ok 3 (-2) ltac:(cbn; lia) ltac:(lia)) as [_ V3]. change (bpow radix2 (-2)) with (/ 4) in V3.
    replace (3 / 4) with (val (lit 3 (-2))) by lra. rewrite <- (rnd_id (val (lit 3 (-2)))) by apply val_dbl. apply rnd_mono. rewrite V3, Vp. lra. }
  assert (Q4 : / 16 <= val q / val g981 <= 1) by (split; (apply Rmult_le_reg_r with (val g981); [lra|]); unfold Rdiv; rewrite Rmult_assoc, Rinv_l by lra; lra).
  destruct (fdiv_range q g981 (/ 16) 1 Fq ltac:(lra) (dbl_pow2 (-4) ltac:(lia)) (dbl_pow2 0 ltac:(lia)) ltac:(lra) (small_top 1 ltac:(lra)) Q4) as [F4 _].
  exists p, f, b, q. split; [exact Ep|]. split; [lra|]. split; [reflexivity|].
  split; [unfold scale_f; rewrite Ep; reflexivity|]. split; [exact Fb|]. split; [exact Eq|]. split; [exact F1|]. split; [exact F2|]. split; [exact F4|].
  split; [apply normal_of; lra|]. split; [apply normal_of; lra|]. split; [apply normal_of; rewrite Vp; lra|]. split; [apply normal_of; lra|]. split; [exact Fd|lra].
Qed.

(** The constants: pi to the nearest double, and pi / (2 g) up to two roundings. *)
Definition qatan (q : Q) (n : nat) : Q := ((q ^ Z.of_nat (2 * n + 1)) / inject_Z (Z.of_nat (2 * n + 1)))%Q.
Fixpoint qsum (n : nat) : Q :=
  match n with
  | O => (2 * qatan (1 # 3) 0 + qatan (1 # 7) 0)%Q
  | S m => Qred (qsum m + (if Nat.even n then 1 else -1) * (2 * qatan (1 # 3) n + qatan (1 # 7) n))%Q
  end.
Lemma qatan_ok d n : Q2R (qatan (1 # d) n) = Ratan_seq (/ IZR (Zpos d)) n.
Proof.
  unfold qatan, Ratan_seq. rewrite Q2R_div by (intros H; unfold Qeq in H; cbn [Qnum Qden inject_Z] in H; lia). f_equal.
  - set (k := (2 * n + 1)%nat). clearbody k. induction k as [|k IH]; [cbn; unfold Q2R; cbn; lra|]. rewrite Nat2Z.inj_succ. unfold Z.succ.
    rewrite (Qeq_eqR _ (((1 # d) ^ Z.of_nat k) * (1 # d))%Q) by (rewrite Qpower_plus' by lia; reflexivity). rewrite Q2R_mult, IH. unfold Q2R at 1. cbn [Qnum Qden pow]. lra.
  - unfold Q2R, inject_Z. cbn [Qnum Qden]. rewrite INR_IZR_INZ. lra.
Qed.
Lemma qsum_ok n : Q2R (qsum n) = sum_f_R0 (tg_alt PI_2_3_7_tg) n.
Proof.
  induction n as [|n IH].
  - cbn [qsum sum_f_R0]. rewrite Q2R_plus, Q2R_mult, !qatan_ok. unfold tg_alt, PI_2_3_7_tg. cbn [pow]. unfold Q2R. cbn [Qnum Qden]. lra.
  - cbn [qsum]. rewrite (Qeq_eqR _ _ (Qred_correct _)). rewrite tech5, <- IH, Q2R_plus, Q2R_mult, Q2R_plus, Q2R_mult, !qatan_ok. f_equal. unfold tg_alt, PI_2_3_7_tg. f_equal.
    + clear. assert (G : forall m, Q2R (if Nat.even m then 1 else -1) = (-1) ^ m).
      { intros m. induction m as [|m IH]; [cbn; unfold Q2R; cbn; lra|]. rewrite Nat.even_succ, <- Nat.negb_even. cbn [pow]. rewrite <- IH. destruct (Nat.even m); cbn [negb]; unfold Q2R; cbn; lra. }
      apply G.
    + unfold Q2R at 1. cbn [Qnum Qden]. lra.
Qed.
Lemma pi_bounds : 3141592653589793238 / 10 ^ 18 <= PI <= 3141592653589793239 / 10 ^ 18.
Proof.
  destruct (PI_2_3_7_ineq 20) as [A B]. rewrite <- !qsum_ok in A, B.
  assert (A' : Q2R ((3141592653589793238 # 4) / inject_Z (10 ^ 18)) <= Q2R (qsum (S (2 * 20)))) by (apply Qle_Rle, Qle_bool_iff; vm_compute; reflexivity).
  assert (B' : Q2R (qsum (2 * 20)) <= Q2R ((3141592653589793239 # 4) / inject_Z (10 ^ 18))) by (apply Qle_Rle, Qle_bool_iff; vm_compute; reflexivity).
  rewrite Q2R_div in A', B' by (vm_compute; discriminate). unfold Q2R at 1 2 in A'. unfold Q2R at 2 3 in B'. cbn [Qnum Qden inject_Z] in A', B'.
  replace (10 ^ 18) with (IZR (10 ^ 18)) by (cbn; lra). change (10 ^ 18)%Z with 1000000000000000000%Z in *. lra.
Qed.
Theorem C105_pi : fin fpi = true /\ Rabs (val fpi - PI) <= / 2 ^ 52.
Proof.
  destruct (lit_ok 7074237752028440 (-51) ltac:(cbn; lia) ltac:(lia)) as [F V]. split; [exact F|]. change (val fpi) with (val (lit 7074237752028440 (-51))). rewrite V.
  replace (bpow radix2 (-51)) with (/ 2251799813685248) by (cbn; lra). pose proof pi_bounds as P. replace (2 ^ 52) with 4503599627370496 by (cbn; lra). apply Rabs_le. cbn in P. lra.
Qed.
Definition intensity_c : R := PI / (2 * (981 / 100)).
Lemma intensity_c_pos : 0 < intensity_c. Proof. unfold intensity_c. pose proof PI_RGT_0. lra. Qed.
Theorem C105_constant : fin arias_c = true /\ Rabs (val arias_c - intensity_c) <= 2 * ueps * intensity_c.
Proof.
  split; [vm_compute; reflexivity|]. destruct (lit_ok 5769001224895771 (-55) ltac:(cbn; lia) ltac:(lia)) as [F V].
  assert (E : val arias_c = val (lit 5769001224895771 (-55))) by (apply feq_val; [vm_compute; reflexivity|exact F|vm_compute; reflexivity]).
  rewrite E, V. replace (bpow radix2 (-55)) with (/ 36028797018963968) by (cbn; lra). pose proof pi_bounds as P. unfold intensity_c, ueps. replace (2 ^ 53) with 9007199254740992 by (cbn; lra). cbn in P. apply Rabs_le. lra.
Qed.

(** Arias intensity of sample k: the exact sum over the samples before it, up to k + 5 roundings, if
    squares do not underflow. *)
Definition approx (E X x : R) : Prop := 0 <= X /\ 1 <= E /\ Rabs (x - X) <= (E - 1) * X.
Lemma approx_rnd E X x : approx E X x -> normal x \/ x = 0 -> approx (E * (1 + ueps)) X (rnd x).
Proof.
  intros (HX & HE & H) N. pose proof ueps_pos. split; [exact HX|]. split; [nra|]. assert (exists e, Rabs e <= ueps /\ rnd x = x * (1 + e)) as (e & He & ->).
  { destruct N as [N| ->]; [apply rnd_rel; exact N|]. exists 0. rewrite rnd_0, Rabs_R0. split; lra. }
  replace (x * (1 + e) - X) with ((x - X) * (1 + e) + e * X) by ring. eapply Rle_trans; [apply Rabs_triang|]. rewrite !Rabs_mult.
  assert (Rabs (1 + e) <= 1 + ueps) by (eapply Rle_trans; [apply Rabs_triang|]; rewrite Rabs_R1; lra).
  rewrite (Rabs_pos_eq X HX). pose proof (Rabs_pos (x - X)). pose proof (Rabs_pos e). pose proof (Rabs_pos (1 + e)).
  assert (Rabs (x - X) * Rabs (1 + e) <= (E - 1) * X * (1 + ueps)) by (apply Rmult_le_compat; assumption). assert (Rabs e * X <= ueps * X) by (apply Rmult_le_compat_r; assumption). lra.
Qed.
Lemma approx_mult E F X Y x y : approx E X x -> approx F Y y -> approx (E * F) (X * Y) (x * y).
Proof.
  intros (HX & HE & H) (HY & HF & K). split; [apply Rmult_le_pos; assumption|]. split; [nra|].
  replace (x * y - X * Y) with ((x - X) * (y - Y) + (x - X) * Y + X * (y - Y)) by ring.
  eapply Rle_trans; [apply Rabs_triang|]. eapply Rle_trans; [apply Rplus_le_compat_r, Rabs_triang|]. rewrite !Rabs_mult, (Rabs_pos_eq X HX), (Rabs_pos_eq Y HY).
  pose proof (Rabs_pos (x - X)). pose proof (Rabs_pos (y - Y)).
  assert (Rabs (x - X) * Rabs (y - Y) <= (E - 1) * X * ((F - 1) * Y)) by (apply Rmult_le_compat; assumption).
  assert (Rabs (x - X) * Y <= (E - 1) * X * Y) by (apply Rmult_le_compat_r; assumption). assert (X * Rabs (y - Y) <= X * ((F - 1) * Y)) by (apply Rmult_le_compat_l; assumption). lra.
Qed.
Lemma approx_exact x : 0 <= x -> approx 1 x x. Proof. intros H. split; [exact H|]. split; [lra|]. rewrite Rminus_eq_0, Rabs_R0. lra. Qed.
Lemma approx_more E F X x : approx E X x -> E <= F -> approx F X x.
Proof. intros (H1 & H2 & H3) H. split; [exact H1|]. split; [lra|]. eapply Rle_trans; [exact H3|]. apply Rmult_le_compat_r; [exact H1|lra]. Qed.
Lemma approx_plus E X Y x y : approx E X x -> approx E Y y -> approx E (X + Y) (x + y).
Proof. intros (H1 & H2 & H3) (K1 & K2 & K3). split; [lra|]. split; [exact H2|]. replace (x + y - (X + Y)) with ((x - X) + (y - Y)) by ring. eapply Rle_trans; [apply Rabs_triang|]. lra. Qed.
(** Samples whose square is far from underflow, or 0. *)
Definition moderate (x : f64) : Prop := val x = 0 \/ bpow radix2 (-400) <= Rabs (val x).
Fixpoint squares (a : list f64) : R := match a with [] => 0 | x :: r => val x * val x + squares r end.
Lemma squares_nonneg a : 0 <= squares a. Proof. induction a as [|x a IH]; cbn; [lra|nra]. Qed.
Lemma rnd_ge x e : (-1074 <= e)%Z -> bpow radix2 e <= x -> bpow radix2 e <= rnd x.
Proof. intros He H. rewrite <- (rnd_id (bpow radix2 e)); [apply rnd_mono, H|]. apply generic_format_FLT_bpow; [typeclasses eauto|lia]. Qed.
Lemma normal_ge x e : (-1022 <= e)%Z -> bpow radix2 e <= x -> normal x.
Proof. intros He H. unfold normal. apply Rle_trans with (bpow radix2 e); [apply bpow_le; exact He|]. eapply Rle_trans; [exact H|apply Rle_abs]. Qed.
Lemma arias_c_low : bpow radix2 (-3) <= val arias_c.
Proof.
  destruct (lit_ok 1 (-3) ltac:(cbn; lia) ltac:(lia)) as [F V]. replace (bpow radix2 (-3)) with (val (lit 1 (-3))) by (rewrite V; ring). apply fle_val; [exact F|vm_compute; reflexivity|vm_compute; reflexivity].
Qed.
Lemma increment_error dt x : fin dt = true -> bpow radix2 (-100) <= val dt -> moderate x -> fin (fmul (fmul arias_c (fmul x x)) dt) = true ->
  approx ((1 + ueps) ^ 5) (intensity_c * (val x * val x) * val dt) (val (fmul (fmul arias_c (fmul x x)) dt)).
Proof.
  intros Fd Hd Hx F. pose proof (fmul_fin_inv _ _ F) as [F1 _]. pose proof (fmul_fin_inv _ _ F1) as [_ F2]. rewrite (fmul_val _ _ F), (fmul_val _ _ F1), (fmul_val _ _ F2).
  pose proof ueps_pos as U. pose proof (bpow_gt_0 radix2 (-100)) as D0. pose proof intensity_c_pos as C0.
  assert (AC : approx ((1 + ueps) ^ 2) intensity_c (val arias_c)).
  { destruct C105_constant as [_ H]. split; [lra|]. split; [nra|]. eapply Rle_trans; [exact H|]. apply Rmult_le_compat_r; [lra|]. cbn. nra. }
  assert (N : (normal (val x * val x) /\ normal (val arias_c * rnd (val x * val x)) /\ normal (rnd (val arias_c * rnd (val x * val x)) * val dt)) \/ val x = 0).
  { destruct Hx as [Hx|Hx]; [right; exact Hx|left].
    assert (S : bpow radix2 (-800) <= val x * val x).
    { change (-800)%Z with (-400 + -400)%Z. rewrite bpow_plus. pose proof (bpow_gt_0 radix2 (-400)). replace (val x * val x) with (Rabs (val x) * Rabs (val x)) by (rewrite <- Rabs_mult; apply Rabs_pos_eq; nra). apply Rmult_le_compat; lra. }
    assert (S2 : bpow radix2 (-803) <= val arias_c * rnd (val x * val x)).
    { change (-803)%Z with (-3 + -800)%Z. rewrite bpow_plus. apply Rmult_le_compat; [apply bpow_ge_0|apply bpow_ge_0|apply arias_c_low|apply rnd_ge; [lia|exact S]]. }
    assert (S3 : bpow radix2 (-903) <= rnd (val arias_c * rnd (val x * val x)) * val dt).
    { change (-903)%Z with (-803 + -100)%Z. rewrite bpow_plus. apply Rmult_le_compat; [apply bpow_ge_0|apply bpow_ge_0|apply rnd_ge; [lia|exact S2]|exact Hd]. }
    split; [apply (normal_ge _ (-800)); [lia|exact S]|]. split; [apply (normal_ge _ (-803)); [lia|exact S2]|apply (normal_ge _ (-903)); [lia|exact S3]]. }
  apply approx_more with (1 * (1 + ueps) * (1 + ueps) ^ 2 * (1 + ueps) * 1 * (1 + ueps)); [|cbn; nra].
  replace (1 * (1 + ueps) * (1 + ueps) ^ 2) with ((1 + ueps) ^ 2 * (1 * (1 + ueps))) by ring.
  destruct N as [(N1 & N2 & N3)|Z].
  - apply approx_rnd; [|left; exact N3]. apply approx_mult; [|apply approx_exact; lra]. apply approx_rnd; [|left; exact N2]. apply approx_mult; [exact AC|].
    apply approx_rnd; [apply approx_exact; nra|left; exact N1].
  - rewrite Z, !Rmult_0_l, rnd_0, !Rmult_0_r, rnd_0, !Rmult_0_l, rnd_0. split; [lra|]. split; [|rewrite Rminus_eq_0, Rabs_R0; lra]. assert (1 <= 1 + ueps) by lra. nra.
Qed.
Lemma arias_error dt a : fin dt = true -> bpow radix2 (-100) <= val dt -> Forall moderate a -> forall acc A k j, fin acc = true -> approx ((1 + ueps) ^ (5 + j)) A (val acc) -> (k < length a)%nat ->
  finite (arias_from acc dt a) ->
  approx ((1 + ueps) ^ (5 + (j + k))) (A + intensity_c * squares (firstn k a) * val dt) (val (nth k (arias_from acc dt a) f0)).
Proof.
  intros Fd Hd Ha. pose proof ueps_pos as U. induction Ha as [|x a Hx Ha IH]; intros acc A k j Fa Aa L Ff; [cbn in L; lia|]. destruct k as [|k].
  - cbn [firstn squares arias_from nth]. rewrite Nat.add_0_r. replace (A + _) with A by ring. exact Aa.
  - cbn [arias_from nth] in *. change (firstn (S k) (x :: a)) with (x :: firstn k a). cbn [squares].
    inversion Ff as [|? ? _ Ff']; subst. set (inc := fmul (fmul arias_c (fmul x x)) dt) in *.
    assert (Fn : fin (fadd acc inc) = true). { destruct a as [|y a]; [cbn in L; lia|]. cbn [arias_from] in Ff'. inversion Ff'; assumption. }
    pose proof (fadd_fin_inv _ _ Fn) as [_ Fi]. pose proof (increment_error dt x Fd Hd Hx Fi) as Ai. fold inc in Ai.
    replace (j + S k)%nat with (S j + k)%nat by lia.
    replace (A + intensity_c * (val x * val x + squares (firstn k a)) * val dt) with ((A + intensity_c * (val x * val x) * val dt) + intensity_c * squares (firstn k a) * val dt) by ring.
    apply IH; [exact Fn| |cbn in L; lia|exact Ff'].
    rewrite (fadd_val _ _ Fa Fi Fn). replace ((1 + ueps) ^ (5 + S j)) with ((1 + ueps) ^ (5 + j) * (1 + ueps)) by (replace (5 + S j)%nat with (S (5 + j)) by lia; cbn [pow]; ring).
    assert (Ap : approx ((1 + ueps) ^ (5 + j)) (A + intensity_c * (val x * val x) * val dt) (val acc + val inc)).
    { apply approx_plus; [exact Aa|]. apply (approx_more _ _ _ _ Ai). apply Rle_pow; [lra|lia]. }
    destruct (rnd_plus' (val acc) (val inc) (val_dbl _) (val_dbl _)) as (e & He & E).
    destruct Ap as (P1 & P2 & P3). split; [exact P1|]. split; [nra|]. rewrite E.
    set (s := val acc + val inc) in *. set (X := A + intensity_c * (val x * val x) * val dt) in *. set (E0 := (1 + ueps) ^ (5 + j)) in *.
    replace (s * (1 + e) - X) with ((s - X) * (1 + e) + e * X) by ring. eapply Rle_trans; [apply Rabs_triang|]. rewrite !Rabs_mult.
    assert (Rabs (1 + e) <= 1 + ueps) by (eapply Rle_trans; [apply Rabs_triang|]; rewrite Rabs_R1; lra). rewrite (Rabs_pos_eq X P1).
    pose proof (Rabs_pos (s - X)). pose proof (Rabs_pos e). pose proof (Rabs_pos (1 + e)).
    assert (Rabs (s - X) * Rabs (1 + e) <= (E0 - 1) * X * (1 + ueps)) by (apply Rmult_le_compat; assumption). assert (Rabs e * X <= ueps * X) by (apply Rmult_le_compat_r; assumption). lra.
Qed.
Theorem C105_intensity : forall dt a k, fin dt = true -> bpow radix2 (-100) <= val dt -> Forall moderate a -> (k < length a)%nat -> fin (last (arias_f dt a) f0) = true ->
  Rabs (val (nth k (arias_f dt a) f0) - PI / (2 * (981 / 100)) * squares (firstn k a) * val dt) <= ((1 + ueps) ^ (k + 5) - 1) * (PI / (2 * (981 / 100)) * squares (firstn k a) * val dt).
Proof.
  intros dt a k Fd Hd Ha L F. pose proof ueps_pos as U. pose proof (bpow_gt_0 radix2 (-100)). assert (Ne : a <> []) by (intros ->; cbn in L; lia).
  destruct (C105_arias dt a Ne Fd ltac:(lra) F) as (_ & _ & Ff & _).
  destruct (arias_error dt a Fd Hd Ha f0 0 k 0 eq_refl) as (_ & _ & H2); [|exact L|exact Ff|].
  - rewrite f0_val. split; [lra|]. split; [apply pow_R1_Rle; lra|]. rewrite Rminus_eq_0, Rabs_R0. lra.
  - rewrite Rplus_0_l in H2. replace (5 + (0 + k))%nat with (k + 5)%nat in H2 by lia. exact H2.
Qed.

Lemma fdiv_fin_inv x y : fin (fdiv x y) = true -> fin y = true -> fin x = true.
Proof. Transparent fdiv. unfold fdiv, Bdiv. destruct x as [s|s| |s m e B], y as [s'|s'| |s' m' e' B']; intros F Fy; try reflexivity; try discriminate Fy; discriminate F. Qed.
Opaque fdiv.
(** Conversion from g: up to two roundings 9.81 times the number, and back up to three roundings. *)
Theorem C105_units_g : forall x, fin x = true -> fin (to_g (from_g x)) = true -> normal (val x * val g981) -> normal (val (from_g x) / val g981) ->
  Rabs (val (from_g x) - val x * (981 / 100)) <= 3 * ueps * Rabs (val x * (981 / 100)) /\
  Rabs (val (to_g (from_g x)) - val x) <= 3 * ueps * Rabs (val x).
Proof.
  intros x Fx F N1 N2.
  assert (G : fin g981 = true /\ val g981 <> 0 /\ Rabs (val g981 - 981 / 100) <= ueps * (981 / 100)).
  { split; [vm_compute; reflexivity|]. assert (exists m, (Z.abs m <= 2 ^ 53)%Z /\ feq g981 (lit m (-49)) = true /\ m = 5522539043063071%Z) as (m & Hm & E & ->) by (eexists; split; [|split; [|reflexivity]]; [cbn; lia|vm_compute; reflexivity]).
    destruct (lit_ok 5522539043063071 (-49) Hm ltac:(lia)) as [Fl Vl]. apply feq_val in E; [|vm_compute; reflexivity|exact Fl]. rewrite E, Vl.
    replace (bpow radix2 (-49)) with (/ 562949953421312) by (cbn; lra). split; [lra|]. unfold ueps. replace (2 ^ 53) with 9007199254740992 by (cbn; lra). apply Rabs_le. lra. }
  destruct G as (Fg & Ng & Hg).
  assert (F1 : fin (from_g x) = true).
  { apply (fdiv_fin_inv _ _ F Fg). }
  assert (V1 : val (from_g x) = rnd (val x * val g981)) by (unfold from_g in *; rewrite fmul_val by exact F1; reflexivity).
  assert (V2 : val (to_g (from_g x)) = rnd (val (from_g x) / val g981)) by (unfold to_g; rewrite fdiv_val; [reflexivity|exact Ng|exact F]).
  destruct (rnd_rel _ N1) as (e1 & He1 & E1), (rnd_rel _ N2) as (e2 & He2 & E2). pose proof ueps_small. pose proof ueps_pos.
  apply Rabs_le_inv in He1, He2. split.
  - rewrite V1, E1. set (d := val g981 - 981 / 100) in *. replace (val g981) with (981 / 100 + d) by (unfold d; ring).
    apply Rabs_le_inv in Hg. replace (val x * (981 / 100 + d) * (1 + e1) - val x * (981 / 100)) with (((d * (1 + e1)) / (981 / 100) + e1) * (val x * (981 / 100))) by field.
    rewrite Rabs_mult. apply Rmult_le_compat_r; [apply Rabs_pos|]. apply Rabs_le. assert (- (ueps * (981 / 100) * (5 / 4)) <= d * (1 + e1) <= ueps * (981 / 100) * (5 / 4)) by (split; nra). lra.
  - rewrite V2, E2, V1, E1. replace (val x * val g981 * (1 + e1) / val g981 * (1 + e2) - val x) with ((e1 + e2 + e1 * e2) * val x) by (field; exact Ng).
    rewrite Rabs_mult. apply Rmult_le_compat_r; [apply Rabs_pos|]. assert (- ueps <= e1 * e2 <= ueps) by (split; nra). apply Rabs_le. lra.
Qed.
Theorem C105_empty : peak_f [] = Err ValueError /\ forall f T, scale_f f (Some T) [] = Err ValueError.
Proof. split; [|intros f T]; reflexivity. Qed.
Example C105_intensity_instance :
  let a := [lit 1 0; f0; lit 1 (-1)] in
  Forall moderate a /\ fin (lit 5764607523034235 (-59)) = true /\ bpow radix2 (-100) <= val (lit 5764607523034235 (-59)) /\
  fin (last (arias_f (lit 5764607523034235 (-59)) a) f0) = true /\ squares (firstn 2 a) = 1.
Proof.
  cbv zeta. destruct (lit_ok 1 0 ltac:(cbn; lia) ltac:(lia)) as [F1 V1]. destruct (lit_ok 1 (-1) ltac:(cbn; lia) ltac:(lia)) as [F2 V2]. destruct (lit_ok 5764607523034235 (-59) ltac:(cbn; lia) ltac:(lia)) as [F3 V3].
  rewrite Rmult_1_l in V1, V2. split.
  - constructor; [|constructor; [|constructor; [|constructor]]]; [right|left; apply f0_val|right].
    + rewrite V1, Rabs_pos_eq by apply bpow_ge_0. apply bpow_le. lia.
    + rewrite V2, Rabs_pos_eq by apply bpow_ge_0. apply bpow_le. lia.
  - split; [exact F3|]. split.
    + rewrite V3. apply Rle_trans with (1 * bpow radix2 (-59)); [rewrite Rmult_1_l; apply bpow_le; lia|]. apply Rmult_le_compat_r; [apply bpow_ge_0|]. apply IZR_le. lia.
    + split; [vm_compute; reflexivity|]. cbn [firstn squares]. rewrite V1, f0_val. change (bpow radix2 0) with 1. lra.
Qed.
