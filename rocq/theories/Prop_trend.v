(** Theorems about tapering and de-trending: C34. *)
From Coq Require Import Reals List Bool ZArith Lia Lra Psatz.
From Verif Require Import Base M_generic M_motion M_interp M_soil M_signal Prop_fourier Prop_filter.
Import ListNotations.
Open Scope R_scope.

(** ** De-trending *)

(** Sums over the samples of a record. *)
Definition S_ (f : R * R -> R) (s : signal) : R := rsum (map f s).
Lemma S_ext f g s : (forall p, In p s -> f p = g p) -> S_ f s = S_ g s.
Proof. intros H. unfold S_. f_equal. apply map_ext_in. exact H. Qed.
Lemma S_plus f g s : S_ (fun p => f p + g p) s = S_ f s + S_ g s.
Proof. unfold S_. induction s as [|p s IH]; cbn [map rsum]; [ring|]. rewrite IH. ring. Qed.
Lemma S_scal c f s : S_ (fun p => c * f p) s = c * S_ f s.
Proof. unfold S_. induction s as [|p s IH]; cbn [map rsum]; [ring|]. rewrite IH. ring. Qed.
Lemma S_const c s : S_ (fun _ => c) s = INR (length s) * c.
Proof. unfold S_. induction s as [|p s IH]; cbn [map rsum length]; [cbn; ring|]. rewrite IH, S_INR. ring. Qed.
Lemma S_nonneg f s : (forall p, 0 <= f p) -> 0 <= S_ f s.
Proof. intros H. unfold S_. induction s as [|p s IH]; cbn [map rsum]; [lra|]. specialize (H p). lra. Qed.
Lemma S_zero f s : (forall p, 0 <= f p) -> S_ f s = 0 -> forall p, In p s -> f p = 0.
Proof.
  intros H. unfold S_. induction s as [|q s IH]; cbn [map rsum]; intros E p Hp; [destruct Hp|].
  pose proof (H q). pose proof (S_nonneg f s H) as Q. unfold S_ in Q. destruct Hp as [-> |Hp]; [lra|]. apply IH; [lra|exact Hp].
Qed.
Lemma S_map f (g : R * R -> R * R) s : S_ f (map g s) = S_ (fun p => f (g p)) s.
Proof. unfold S_. rewrite map_map. reflexivity. Qed.

Definition mt (s : signal) := S_ fst s / INR (length s).
Definition mx (s : signal) := S_ snd s / INR (length s).
Lemma mean_times s : mean (times s) = mt s.
Proof. unfold mean, mt, S_, times. rewrite map_length. reflexivity. Qed.
Lemma mean_vals s : mean (vals s) = mx s.
Proof. unfold mean, mx, S_, vals. rewrite map_length. reflexivity. Qed.
Lemma dot_centred (f g : R * R -> R) s : dot (centred (map f s)) (centred (map g s)) = S_ (fun p => (f p - mean (map f s)) * (g p - mean (map g s))) s.
Proof.
  unfold dot, centred, S_. generalize (mean (map f s)), (mean (map g s)). intros a b. induction s as [|p s IH]; [reflexivity|]. cbn [map combine rsum fst snd]. rewrite IH. reflexivity.
Qed.
Definition Stt (s : signal) := S_ (fun p => (fst p - mt s) * (fst p - mt s)) s.
Definition Stx (s : signal) := S_ (fun p => (fst p - mt s) * (snd p - mx s)) s.
Lemma slope_eq s : fit_slope (times s) (vals s) = Stx s / Stt s.
Proof. unfold fit_slope, times, vals. rewrite !dot_centred. fold (times s) (vals s). rewrite mean_times, mean_vals. reflexivity. Qed.
Definition slope (s : signal) := Stx s / Stt s.
Lemma remove_eq s : remove_linear_trend s = map (fun p => (fst p, snd p - mx s - slope s * (fst p - mt s))) s.
Proof.
  unfold remove_linear_trend. rewrite slope_eq, mean_times, mean_vals. apply map_ext. intros p. f_equal. unfold slope. ring.
Qed.

(** Not all samples are at the same time. *)
Definition spread (s : signal) : Prop := exists p q, In p s /\ In q s /\ fst p <> fst q.
Lemma Stt_pos s : spread s -> 0 < Stt s.
Proof.
  intros (p & q & Hp & Hq & N). assert (NN : forall r : R * R, 0 <= (fst r - mt s) * (fst r - mt s)) by (intros; apply Rle_0_sqr).
  assert (0 <= Stt s) by (apply S_nonneg; exact NN). destruct (Req_dec (Stt s) 0) as [E|E]; [|lra]. exfalso.
  pose proof (S_zero _ s NN E p Hp) as A. pose proof (S_zero _ s NN E q Hq) as B. cbn beta in A, B. apply N. apply Rmult_integral in A, B. lra.
Qed.
Lemma spread_len s : spread s -> 0 < INR (length s).
Proof. intros (p & q & Hp & _). apply lt_0_INR. destruct s; [destruct Hp|cbn; lia]. Qed.
Lemma S_ct s : spread s -> S_ (fun p => fst p - mt s) s = 0.
Proof.
  intros H. pose proof (spread_len s H). transitivity (S_ fst s + S_ (fun _ => - mt s) s); [rewrite <- S_plus; apply S_ext; intros; ring|]. rewrite S_const. unfold mt. field. lra.
Qed.
Lemma S_cx s : spread s -> S_ (fun p => snd p - mx s) s = 0.
Proof.
  intros H. pose proof (spread_len s H). transitivity (S_ snd s + S_ (fun _ => - mx s) s); [rewrite <- S_plus; apply S_ext; intros; ring|]. rewrite S_const. unfold mx. field. lra.
Qed.

(** The residual has no mean and no correlation with time... *)
Theorem C34_residual_orthogonal : forall s, spread s -> rsum (vals (remove_linear_trend s)) = 0 /\
  rsum (map (fun p => fst p * snd p) (remove_linear_trend s)) = 0.
Proof.
  intros s H. pose proof (Stt_pos s H). rewrite remove_eq. unfold vals. rewrite !map_map. cbn [fst snd].
  assert (A : S_ (fun p => snd p - mx s - slope s * (fst p - mt s)) s = 0).
  { transitivity (S_ (fun p => snd p - mx s) s + - slope s * S_ (fun p => fst p - mt s) s); [rewrite <- S_scal, <- S_plus; apply S_ext; intros; ring|]. rewrite S_ct, S_cx by exact H. ring. }
  split; [exact A|]. change (S_ (fun p => fst p * (snd p - mx s - slope s * (fst p - mt s))) s = 0).
  transitivity ((Stx s - slope s * Stt s) + mt s * S_ (fun p => snd p - mx s - slope s * (fst p - mt s)) s).
  - unfold Stx, Stt. replace (S_ (fun p => (fst p - mt s) * (snd p - mx s)) s - slope s * S_ (fun p => (fst p - mt s) * (fst p - mt s)) s) with (S_ (fun p => (fst p - mt s) * (snd p - mx s)) s + - slope s * S_ (fun p => (fst p - mt s) * (fst p - mt s)) s) by ring.
    rewrite <- !S_scal, <- !S_plus. apply S_ext. intros. ring.
  - rewrite A. unfold slope. field. lra.
Qed.

(** ... so no straight line fits better than the one removed. *)
Theorem C34_least_squares : forall s m c, spread s ->
  rsum (map (fun p => snd p * snd p) (remove_linear_trend s)) <= rsum (map (fun p => (snd p - (m * fst p + c)) * (snd p - (m * fst p + c))) s).
Proof.
  intros s m c H. destruct (C34_residual_orthogonal s H) as [A B]. rewrite remove_eq in *. unfold vals in A. rewrite !map_map in *. cbn [fst snd] in *.
  set (r := fun p : R * R => snd p - mx s - slope s * (fst p - mt s)) in *. change (S_ r s = 0) in A. change (S_ (fun p => fst p * r p) s = 0) in B.
  change (S_ (fun p => r p * r p) s <= S_ (fun p => (snd p - (m * fst p + c)) * (snd p - (m * fst p + c))) s).
  set (d := slope s - m). set (e := mx s - slope s * mt s - c).
  assert (E : S_ (fun p => (snd p - (m * fst p + c)) * (snd p - (m * fst p + c))) s = S_ (fun p => r p * r p) s + (2 * d * S_ (fun p => fst p * r p) s + (2 * e * S_ r s + S_ (fun p => (d * fst p + e) * (d * fst p + e)) s))).
  { rewrite <- !S_scal, <- !S_plus. apply S_ext. intros p _. unfold r, d, e. ring. }
  rewrite E, A, B. pose proof (S_nonneg (fun p => (d * fst p + e) * (d * fst p + e)) s ltac:(intros; apply Rle_0_sqr)). lra.
Qed.

(** Straight lines vanish. *)
Theorem C34_line_vanishes : forall s m c, spread s -> (forall p, In p s -> snd p = m * fst p + c) ->
  forall p, In p (remove_linear_trend s) -> snd p = 0.
Proof.
  intros s m c H L p Hp. pose proof (C34_least_squares s m c H) as Q.
  assert (Z : rsum (map (fun p => (snd p - (m * fst p + c)) * (snd p - (m * fst p + c))) s) = 0).
  { change (S_ (fun p => (snd p - (m * fst p + c)) * (snd p - (m * fst p + c))) s = 0). rewrite (S_ext _ (fun _ => 0)) by (intros q Hq; rewrite (L q Hq); ring). rewrite S_const. ring. }
  assert (NN : forall r : R * R, 0 <= snd r * snd r) by (intros; apply Rle_0_sqr). pose proof (S_nonneg _ (remove_linear_trend s) NN) as P0. unfold S_ in P0.
  pose proof (S_zero _ (remove_linear_trend s) NN ltac:(unfold S_; lra) p Hp) as E. cbn beta in E. apply Rmult_integral in E. lra.
Qed.

Lemma remove_times s : times (remove_linear_trend s) = times s.
Proof. unfold remove_linear_trend, times. rewrite map_map. reflexivity. Qed.
Lemma remove_length s : length (remove_linear_trend s) = length s.
Proof. apply map_length. Qed.
Lemma spread_times s s' : times s' = times s -> spread s -> spread s'.
Proof.
  intros E (p & q & Hp & Hq & N). assert (A : forall t, In t (times s) -> exists r, In r s' /\ fst r = t).
  { intros t Ht. rewrite <- E in Ht. unfold times in Ht. apply in_map_iff in Ht. destruct Ht as (r & <- & Hr). exists r. auto. }
  destruct (A (fst p)) as (p' & Hp' & Ep); [apply in_map; exact Hp|]. destruct (A (fst q)) as (q' & Hq' & Eq); [apply in_map; exact Hq|]. exists p', q'. rewrite Ep, Eq. auto.
Qed.

(** A second removal changes nothing; times and length are kept. *)
Theorem C34_idempotent : forall s, spread s -> remove_linear_trend (remove_linear_trend s) = remove_linear_trend s /\
  times (remove_linear_trend s) = times s /\ length (remove_linear_trend s) = length s.
Proof.
  intros s H. split; [|split; [apply remove_times|apply remove_length]]. set (r := remove_linear_trend s). destruct (C34_residual_orthogonal s H) as [A B]. fold r in A, B.
  assert (Hr : spread r) by (apply (spread_times s); [apply remove_times|exact H]). pose proof (Stt_pos r Hr).
  assert (M : mx r = 0) by (unfold mx, S_; unfold vals in A; rewrite A; unfold Rdiv; ring).
  assert (X : Stx r = 0).
  { unfold Stx. rewrite M. transitivity (S_ (fun p => fst p * snd p) r + - mt r * S_ snd r); [rewrite <- S_scal, <- S_plus; apply S_ext; intros; ring|]. unfold S_. unfold vals in A. rewrite A, B. ring. }
  rewrite (remove_eq r). unfold slope. rewrite M, X. transitivity (map (fun p : R * R => p) r); [|apply map_id]. apply map_ext. intros p. destruct p as [t x]. cbn [fst snd]. f_equal. field. lra.
Qed.

(** De-trending is linear in the values. *)
Lemma remove_vals s : vals (remove_linear_trend s) = map (fun p => snd p - mx s - slope s * (fst p - mt s)) s.
Proof. rewrite remove_eq. unfold vals. rewrite map_map. reflexivity. Qed.
Lemma zip_rows (s1 s2 : signal) : times s2 = times s1 -> exists z : list (R * (R * R)),
  s1 = map (fun p => (fst p, fst (snd p))) z /\ s2 = map (fun p => (fst p, snd (snd p))) z /\
  forall a b, with_vals s1 (lincomb a b (vals s1) (vals s2)) = map (fun p => (fst p, a * fst (snd p) + b * snd (snd p))) z.
Proof.
  revert s2. induction s1 as [|[t x] s1 IH]; intros [|[u y] s2] E; try discriminate.
  - exists []. repeat split; reflexivity.
  - unfold times in E. cbn [map fst] in E. injection E as E1 E2. subst u. destruct (IH s2 E2) as (z & Z1 & Z2 & Z3). exists ((t, (x, y)) :: z). cbn [map fst snd]. rewrite <- Z1, <- Z2. split; [reflexivity|]. split; [reflexivity|]. intros a b. rewrite <- Z3. reflexivity.
Qed.
Theorem C34_linear : forall s1 s2 a b, times s2 = times s1 -> spread s1 ->
  vals (remove_linear_trend (with_vals s1 (lincomb a b (vals s1) (vals s2)))) = lincomb a b (vals (remove_linear_trend s1)) (vals (remove_linear_trend s2)).
Proof.
  intros s1 s2 a b E H. destruct (zip_rows s1 s2 E) as (z & Z1 & Z2 & Z3). rewrite Z3. set (s := map (fun p => (fst p, a * fst (snd p) + b * snd (snd p))) z).
  assert (L1 : length s1 = length z) by (rewrite Z1; apply map_length). assert (L2 : length s2 = length z) by (rewrite Z2; apply map_length). assert (L : length s = length z) by apply map_length.
  set (T := fun f : R * (R * R) -> R => rsum (map f z)).
  assert (Tp : forall f g, T (fun p => f p + g p) = T f + T g) by (intros; unfold T; clear; induction z as [|p z IH]; cbn [map rsum]; [ring|rewrite IH; ring]).
  assert (Ts : forall c f, T (fun p => c * f p) = c * T f) by (intros; unfold T; clear; induction z as [|p z IH]; cbn [map rsum]; [ring|rewrite IH; ring]).
  assert (Te : forall f g, (forall p, f p = g p) -> T f = T g) by (intros f g Hfg; unfold T; f_equal; apply map_ext; exact Hfg).
  assert (N : 0 < INR (length z)) by (rewrite <- L1; apply spread_len, H).
  assert (M1 : mt s1 = mt s) by (unfold mt; rewrite L1, L; rewrite Z1; unfold s, S_; rewrite !map_map; reflexivity).
  assert (M2 : mt s2 = mt s) by (unfold mt; rewrite L2, L; rewrite Z2; unfold s, S_; rewrite !map_map; reflexivity).
  assert (MX : mx s = a * mx s1 + b * mx s2).
  { unfold mx. rewrite L1, L2, L. rewrite Z1, Z2. unfold s, S_. rewrite !map_map. cbn [fst snd].
    change ((T (fun p => a * fst (snd p) + b * snd (snd p))) / INR (length z) = a * (T (fun p => fst (snd p)) / INR (length z)) + b * (T (fun p => snd (snd p)) / INR (length z))). rewrite Tp, !Ts. field. lra. }
  assert (T1 : Stt s1 = Stt s) by (unfold Stt; rewrite M1; rewrite Z1; unfold s, S_; rewrite !map_map; reflexivity).
  assert (T2 : Stt s2 = Stt s) by (unfold Stt; rewrite M2; rewrite Z2; unfold s, S_; rewrite !map_map; reflexivity).
  pose proof (Stt_pos s1 H) as P. rewrite T1 in P.
  assert (SX : Stx s = a * Stx s1 + b * Stx s2).
  { unfold Stx. rewrite M1, M2, MX. generalize (mx s1) (mx s2) (mt s). intros c1 c2 c0. rewrite Z1, Z2. unfold s, S_. rewrite !map_map. cbn [fst snd].
    change (T (fun p => (fst p - c0) * (a * fst (snd p) + b * snd (snd p) - (a * c1 + b * c2))) = a * T (fun p => (fst p - c0) * (fst (snd p) - c1)) + b * T (fun p => (fst p - c0) * (snd (snd p) - c2))).
    rewrite <- !Ts, <- Tp. apply Te. intros p. ring. }
  rewrite !remove_vals. unfold slope. rewrite SX, T1, T2, M1, M2, MX. generalize (mx s1) (mx s2) (mt s) (Stx s1) (Stx s2) (Stt s) P. intros c1 c2 c0 d1 d2 d Pd.
  rewrite Z1, Z2. unfold s, lincomb. rewrite !map_map. cbn [fst snd]. clear - Pd. induction z as [|p z IH]; [reflexivity|]. cbn [map combine fst snd]. f_equal; [field; lra|exact IH].
Qed.

(** ** Tapering *)

(** The cosine-tapered (Tukey) window as a function of the position u in [0, 1]; a
    fraction alpha/2 is tapered at each end. *)
Definition taper_shape (alpha u : R) : R :=
  if Rle_dec u (alpha / 2) then (1 - cos (2 * PI * u / alpha)) / 2
  else if Rlt_dec u (1 - alpha / 2) then 1 else (1 - cos (2 * PI * (1 - u) / alpha)) / 2.

Lemma tukey_shape M alpha n : (2 <= M)%nat -> 0 < alpha < 1 -> (n < M)%nat -> tukey_at M alpha n = taper_shape alpha (INR n / INR (M - 1)).
Proof.
  intros HM Ha Hn. unfold tukey_at, taper_shape. set (D := INR (M - 1)). assert (HD : 0 < D) by (apply lt_0_INR; lia).
  set (q := alpha * D / 2). assert (Hq : 0 < q) by (unfold q; nra). set (w := Z.to_nat (Int_part q)).
  assert (W : INR w <= q < INR w + 1).
  { pose proof (base_Int_part q) as [B1 B2]. assert (0 <= Int_part q)%Z. { apply Z.lt_succ_r. apply lt_IZR. rewrite succ_IZR. lra. }
    unfold w. rewrite INR_IZR_INZ, Z2Nat.id by assumption. lra. }
  assert (B1 : Nat.ltb n (w + 1) = true <-> INR n / D <= alpha / 2).
  { rewrite Nat.ltb_lt. split; intros Q.
    - apply Rmult_le_reg_r with D; [exact HD|]. replace (INR n / D * D) with (INR n) by (field; lra). replace (alpha / 2 * D) with q by (unfold q; field). assert (INR n <= INR w) by (apply le_INR; lia). lra.
    - apply Rmult_le_compat_r with (r := D) in Q; [|lra]. replace (INR n / D * D) with (INR n) in Q by (field; lra). replace (alpha / 2 * D) with q in Q by (unfold q; field).
      apply INR_lt. rewrite plus_INR. cbn [INR]. lra. }
  assert (E : INR (M - 1 - n) = D - INR n) by (unfold D; rewrite <- minus_INR by lia; reflexivity).
  assert (B2 : Nat.ltb n (M - w - 1) = true <-> INR n / D < 1 - alpha / 2).
  { rewrite Nat.ltb_lt. split; intros Q.
    - apply Rmult_lt_reg_r with D; [exact HD|]. replace (INR n / D * D) with (INR n) by (field; lra). replace ((1 - alpha / 2) * D) with (D - q) by (unfold q; field).
      assert (Q' : INR (w + 1) <= INR (M - 1 - n)) by (apply le_INR; lia). rewrite E, plus_INR in Q'. cbn [INR] in Q'. lra.
    - apply Rmult_lt_compat_r with (r := D) in Q; [|lra]. replace (INR n / D * D) with (INR n) in Q by (field; lra). replace ((1 - alpha / 2) * D) with (D - q) in Q by (unfold q; field).
      assert (Q' : (w < M - 1 - n)%nat) by (apply INR_lt; rewrite E; lra). lia. }
  fold q. fold w. destruct (Rle_dec (INR n / D) (alpha / 2)) as [Q1|Q1].
  - rewrite (proj2 B1) by exact Q1. replace (PI * (-1 + 2 * INR n / alpha / D)) with (- (PI - 2 * PI * (INR n / D) / alpha)) by (field; lra). rewrite cos_neg, Rtrigo_facts.cos_pi_minus. field.
  - replace (Nat.ltb n (w + 1)) with false by (symmetry; apply not_true_is_false; tauto). destruct (Rlt_dec (INR n / D) (1 - alpha / 2)) as [Q2|Q2].
    + rewrite (proj2 B2) by exact Q2. reflexivity.
    + replace (Nat.ltb n (M - w - 1)) with false by (symmetry; apply not_true_is_false; tauto).
      replace (PI * (-2 / alpha + 1 + 2 * INR n / alpha / D)) with (PI - 2 * PI * (1 - INR n / D) / alpha) by (field; lra). rewrite Rtrigo_facts.cos_pi_minus. field.
Qed.

Lemma shape_bounds alpha u : 0 <= taper_shape alpha u <= 1.
Proof.
  unfold taper_shape. destruct (Rle_dec _ _); [|destruct (Rlt_dec _ _)]; [|lra|].
  - pose proof (COS_bound (2 * PI * u / alpha)). lra.
  - pose proof (COS_bound (2 * PI * (1 - u) / alpha)). lra.
Qed.
Lemma shape_ends alpha : 0 < alpha < 1 -> taper_shape alpha 0 = 0 /\ taper_shape alpha 1 = 0.
Proof.
  intros Ha. unfold taper_shape. split.
  - destruct (Rle_dec 0 (alpha / 2)); [|lra]. replace (2 * PI * 0 / alpha) with 0 by (field; lra). rewrite cos_0. field.
  - destruct (Rle_dec 1 (alpha / 2)); [lra|]. destruct (Rlt_dec 1 (1 - alpha / 2)); [lra|]. replace (2 * PI * (1 - 1) / alpha) with 0 by (field; lra). rewrite cos_0. field.
Qed.
Lemma shape_symmetric alpha u : 0 < alpha < 1 -> taper_shape alpha (1 - u) = taper_shape alpha u.
Proof.
  intros Ha. unfold taper_shape. replace (1 - (1 - u)) with u by ring. destruct (Rle_dec (1 - u) (alpha / 2)), (Rle_dec u (alpha / 2)); try lra; [destruct (Rlt_dec u (1 - alpha / 2)); [lra|reflexivity]|destruct (Rlt_dec (1 - u) (1 - alpha / 2)); [lra|reflexivity]|].
  destruct (Rlt_dec (1 - u) (1 - alpha / 2)), (Rlt_dec u (1 - alpha / 2)); try lra; reflexivity.
Qed.

Lemma tukey_length M alpha : length (tukey M alpha) = M.
Proof. unfold tukey. destruct (Nat.leb M 1); [apply repeat_length|]. destruct (Rleb alpha 0); [apply repeat_length|]. destruct (Rleb 1 alpha); rewrite map_length, seq_length; reflexivity. Qed.
Lemma mul_nth (x w : list R) : forall k, length x = length w -> nth k (map (fun p => fst p * snd p) (combine x w)) 0 = nth k x 0 * nth k w 0.
Proof. revert w. induction x as [|u x IH]; intros [|v w] [|k] H; try discriminate; cbn [combine map nth fst snd]; try ring. apply IH. cbn in H. lia. Qed.

(** Every taper of width w in (0, 2) multiplies by the window with fraction w/2. *)
Theorem C34_taper : forall x w y, 0 < w < 2 -> (2 <= length x)%nat -> taper_Tukey (T1 x) w = Ok y ->
  length y = length x /\
  forall k, (k < length x)%nat -> nth k y 0 = nth k x 0 * taper_shape (w / 2) (INR k / INR (length x - 1)).
Proof.
  intros x w y Hw Hx H. cbn [taper_Tukey] in H. match type of H with Ok ?b = Ok _ => assert (E : y = b) by congruence end. subst y.
  split; [rewrite map_length, combine_length, tukey_length; lia|]. intros k Hk. rewrite mul_nth by (rewrite tukey_length; reflexivity). f_equal.
  unfold tukey. rewrite (proj2 (Nat.leb_gt _ _)) by lia. rewrite (proj2 (Rleb_false (w / 2) 0)), (proj2 (Rleb_false 1 (w / 2))) by lra.
  rewrite nth_indep with (d' := tukey_at (length x) (w / 2) 0) by (rewrite map_length, seq_length; exact Hk). rewrite map_nth, seq_nth by exact Hk. apply tukey_shape; [lia|lra|exact Hk].
Qed.

(** No sample grows or changes sign, both ends become zero, the middle is unchanged. *)
Theorem C34_taper_effect : forall x w y, 0 < w < 2 -> (2 <= length x)%nat -> taper_Tukey (T1 x) w = Ok y ->
  nth 0 y 0 = 0 /\ nth (length x - 1) y 0 = 0 /\
  (forall k, (k < length x)%nat -> Rabs (nth k y 0) <= Rabs (nth k x 0) /\ 0 <= nth k y 0 * nth k x 0) /\
  (forall k, (k < length x)%nat -> w / 4 * INR (length x - 1) < INR k < (1 - w / 4) * INR (length x - 1) -> nth k y 0 = nth k x 0).
Proof.
  intros x w y Hw Hx H. destruct (C34_taper x w y Hw Hx H) as [L V]. assert (HD : 0 < INR (length x - 1)) by (apply lt_0_INR; lia). destruct (shape_ends (w / 2)) as [E0 E1]; [lra|]. split; [|split; [|split]].
  - rewrite V by lia. cbn [INR]. replace (0 / INR (length x - 1)) with 0 by (field; lra). rewrite E0. ring.
  - rewrite V by lia. replace (INR (length x - 1) / INR (length x - 1)) with 1 by (field; lra). rewrite E1. ring.
  - intros k Hk. rewrite V by exact Hk. pose proof (shape_bounds (w / 2) (INR k / INR (length x - 1))) as B. split.
    + rewrite Rabs_mult, (Rabs_pos_eq (taper_shape _ _)) by lra. pose proof (Rabs_pos (nth k x 0)). nra.
    + nra.
  - intros k Hk [B1 B2]. rewrite V by exact Hk. unfold taper_shape. assert (Q : INR k / INR (length x - 1) * INR (length x - 1) = INR k) by (field; lra). set (u := INR k / INR (length x - 1)) in *. rewrite <- Q in B1, B2.
    apply Rmult_lt_reg_r in B1; [|exact HD]. apply Rmult_lt_reg_r in B2; [|exact HD]. destruct (Rle_dec u (w / 2 / 2)); [lra|]. destruct (Rlt_dec u (1 - w / 2 / 2)); [ring|lra].
Qed.

(** Two-column signals, which the documentation allows, always raise (finding). *)
Theorem C34_two_columns_refused : forall s w, taper_Tukey (T2 s) w = Err TypeError.
Proof. reflexivity. Qed.

Example C34_instance : let s := [(0, 1); (1, 2); (2, 6)] in
  spread s /\ vals (remove_linear_trend s) = [1/2; -1; 1/2] /\
  exists y, taper_Tukey (T1 [5; 7; 9]) 1 = Ok y /\ nth 1 y 0 = 7 /\ nth 0 y 0 = 0.
Proof.
  cbv zeta. split; [exists (0, 1), (1, 2); cbn; repeat split; auto; lra|]. split.
  - rewrite remove_vals. unfold slope, Stx, Stt, mt, mx, S_. cbn [map rsum fst snd length]. replace (INR 3) with 3 by (cbn; lra). f_equal; [field|]. f_equal; [field|]. f_equal. field.
  - eexists. split; [reflexivity|]. match goal with |- nth 1 ?y 0 = _ /\ _ => assert (E : taper_Tukey (T1 [5; 7; 9]) 1 = Ok y) by reflexivity; set (yy := y) in * end.
    destruct (C34_taper_effect [5; 7; 9] 1 yy ltac:(lra) ltac:(cbn; lia) E) as (Z0 & _ & _ & Mid). split; [|exact Z0]. change 7 with (nth 1 [5; 7; 9] 0). apply Mid; [cbn; lia|]. cbn. lra.
Qed.
