(** Theorems about sine-window smoothing: C83. *)
From Coq Require Import Reals List Bool ZArith Lia Lra Psatz.
From Verif Require Import Base M_motion M_sine P_motion.
Import ListNotations.
Open Scope R_scope.

(** Number of one-sided window points: the least n >= 1 with n times the unit above 2. *)
Definition width_of (udf : R) (lmax : nat) : Prop := (1 <= lmax)%nat /\ (INR lmax - 1) * udf <= 2 < INR lmax * udf.
Lemma width_exists udf : 0 < udf -> (0 < Int_part (2 / udf) + 1)%Z /\ width_of udf (Z.to_nat (Int_part (2 / udf) + 1)).
Proof.
  intros H. set (q := 2 / udf). assert (Q : 0 < q) by (apply Rdiv_lt_0_compat; lra). pose proof (base_Int_part q) as [B1 B2].
  assert (0 <= Int_part q)%Z by (apply Z.lt_succ_r, lt_IZR; rewrite succ_IZR; lra). split; [lia|]. split; [lia|].
  rewrite INR_IZR_INZ, Z2Nat.id by lia. rewrite plus_IZR. assert (E : q * udf = 2) by (unfold q; field; lra). nra.
Qed.

Lemma sine_weight_nonneg udf l : 0 < udf -> 0 <= sine_weight udf l.
Proof. intros H. unfold sine_weight. destruct l; [lra|]. apply Rmult_le_pos; [lra|]. replace 4%nat with (2 * 2)%nat by reflexivity. rewrite pow_mult. apply pow2_ge_0. Qed.

(** The result when nothing overflows. *)
Definition folded (x : list R) (T udf : R) (lmax : nat) : arr :=
  fold_left (fold_step (lmax * 2 - 1) (lmax * 2 - 1 - 1 + length x)) (seq 1 (lmax - 1))
    (spread_power (sine_weight udf) (shifted x T (lmax * 2 - 1)) lmax ((lmax * 2 - 1 - 1) * 2 + length x - lmax + 1)).
Definition smoothed (x : list R) (T udf : R) (lmax : nat) : list R :=
  map (fun k => let g := folded x T udf lmax (lmax * 2 - 1 - 1 + k)%nat in if Nat.eqb k 0 || Nat.eqb k (length x - 1) then sqrt (g * T) else sqrt (g * T / 2)) (seq 0 (length x)).

Lemma sine_outcome s span : (2 <= length s)%nat -> 0 < step_of s -> 0 < span ->
  let udf := 1854305 / 1000000 / span * step_of s in
  let lmax := Z.to_nat (Int_part (2 / udf) + 1) in
  sine_smooth s span = if Nat.leb lmax 2 && Nat.leb 4497 (length s + 3 * lmax - 2) then Err IndexError else Ok (smoothed (vals s) (1 / step_of s) udf lmax).
Proof.
  intros Hn Hd Hs. cbv zeta. unfold sine_smooth. rewrite first_step_ok by exact Hn. cbn [bind]. rewrite (proj2 (Reqb_false span 0)) by lra. fold (udf_of span (step_of s)). set (udf := udf_of span (step_of s)).
  assert (HU : 0 < udf) by (unfold udf, udf_of; apply Rmult_lt_0_compat; [apply Rdiv_lt_0_compat; lra|exact Hd]). destruct (width_exists udf HU) as [Z1 [W1 W2]].
  destruct (Z.ltb_spec (Int_part (2 / udf) + 1) 0); [lia|]. destruct (Z.eqb_spec (Int_part (2 / udf) + 1) 0); [lia|]. set (lmax := Z.to_nat (Int_part (2 / udf) + 1)) in *. rewrite vals_length.
  set (nf := length s). assert (C : Nat.leb (if Nat.ltb 4497 ((lmax * 2 - 1 - 1) * 2 + nf) then (lmax * 2 - 1 - 1) * 2 + nf else 4497) (lmax * 2 - 1 - 1 + nf + lmax) = Nat.leb lmax 2 && Nat.leb 4497 (nf + 3 * lmax - 2)).
  { destruct (Nat.ltb_spec 4497 ((lmax * 2 - 1 - 1) * 2 + nf)), (Nat.leb_spec lmax 2), (Nat.leb_spec 4497 (nf + 3 * lmax - 2)); cbn [andb]; try (apply Nat.leb_le; lia); apply Nat.leb_gt; lia. }
  rewrite C. destruct (Nat.leb lmax 2 && Nat.leb 4497 (nf + 3 * lmax - 2)); [reflexivity|]. unfold smoothed, folded. rewrite vals_length. reflexivity.
Qed.

(** Every spectrum gets a result of the same length, except that long spectra with a
    window of at most two one-sided points raise IndexError (finding). *)
Theorem C83_outcomes : forall s span lmax, (2 <= length s)%nat -> 0 < step_of s -> 0 < span -> width_of (1854305 / 1000000 / span * step_of s) lmax ->
  ((lmax <= 2 /\ 4497 <= length s + 3 * lmax - 2)%nat -> sine_smooth s span = Err IndexError) /\
  (~ (lmax <= 2 /\ 4497 <= length s + 3 * lmax - 2)%nat -> exists y, sine_smooth s span = Ok y /\ length y = length s).
Proof.
  intros s span lmax Hn Hd Hs [W1 W2]. pose proof (sine_outcome s span Hn Hd Hs) as E. cbv zeta in E. set (udf := 1854305 / 1000000 / span * step_of s) in *.
  assert (HU : 0 < udf) by (unfold udf; apply Rmult_lt_0_compat; [apply Rdiv_lt_0_compat; lra|exact Hd]). destruct (width_exists udf HU) as [_ [V1 V2]]. set (lm := Z.to_nat (Int_part (2 / udf) + 1)) in *.
  assert (lm = lmax). { assert (INR lm < INR lmax + 1) by nra. assert (INR lmax < INR lm + 1) by nra. rewrite <- S_INR in *. apply INR_lt in H, H0. lia. }
  rewrite H in E. rewrite E. split; intros C.
  - rewrite (proj2 (Nat.leb_le lmax 2)), (proj2 (Nat.leb_le 4497 _)) by tauto. reflexivity.
  - assert (F : Nat.leb lmax 2 && Nat.leb 4497 (length s + 3 * lmax - 2) = false) by (apply not_true_is_false; rewrite andb_true_iff, !Nat.leb_le; exact C). rewrite F. eexists. split; [reflexivity|]. unfold smoothed. rewrite map_length, seq_length. apply vals_length.
Qed.

(** ** The folding loop *)
Lemma fold_nonneg ll ln ls : forall a : arr, (forall j, 0 <= a j) -> forall j, 0 <= fold_left (fold_step ll ln) ls a j.
Proof.
  induction ls as [|l ls IH]; intros a Ha j; cbn [fold_left]; [apply Ha|]. apply IH. intros i. unfold fold_step, aset. pose proof (Ha i). pose proof (Ha (ll + l - 1)%nat). pose proof (Ha (ll - l - 2)%nat). pose proof (Ha (ln + l + 1)%nat).
  repeat match goal with |- context [Nat.eqb ?x ?y] => destruct (Nat.eqb x y) end; lra.
Qed.
Lemma fold_scale ll ln c ls : forall a b : arr, (forall j, b j = c * a j) -> forall j, fold_left (fold_step ll ln) ls b j = c * fold_left (fold_step ll ln) ls a j.
Proof.
  induction ls as [|l ls IH]; intros a b H j; cbn [fold_left]; [apply H|]. apply IH. intros i. unfold fold_step, aset. rewrite !H.
  repeat match goal with |- context [Nat.eqb ?x ?y] => destruct (Nat.eqb x y) end; ring.
Qed.
Lemma fold_untouched ll ln ls j : (forall l, In l ls -> j <> (ll + l - 1)%nat /\ j <> (ln - l - 2)%nat) -> forall a : arr, fold_left (fold_step ll ln) ls a j = a j.
Proof.
  intros H. induction ls as [|l ls IH]; intros a; cbn [fold_left]; [reflexivity|]. rewrite IH by (intros; apply H; right; assumption). destruct (H l (or_introl eq_refl)) as [H1 H2]. unfold fold_step, aset.
  destruct (Nat.eqb_spec j (ln - l - 2)); [congruence|]. destruct (Nat.eqb_spec j (ll + l - 1)); [congruence|]. reflexivity.
Qed.
Lemma power_nonneg x T k : 0 < T -> 0 <= power x T k.
Proof. intros H. unfold power. pose proof (pow2_ge_0 (nth k x 0)) as P. assert (0 < / T) by (apply Rinv_0_lt_compat, H). destruct (_ || _); unfold Rdiv; apply Rmult_le_pos; lra. Qed.
Lemma shifted_nonneg x T ll i : 0 < T -> 0 <= shifted x T ll i.
Proof. intros H. unfold shifted. destruct (_ && _); [apply power_nonneg, H|lra]. Qed.
Lemma spread_nonneg w g1 lmax le k : (forall l, 0 <= w l) -> (forall i, 0 <= g1 i) -> 0 <= spread_power w g1 lmax le k.
Proof.
  intros Hw Hg. unfold spread_power. destruct (_ && _); [|lra]. apply Rplus_le_le_0_compat; [apply Rmult_le_pos; auto|]. apply rsum_nonneg. apply Forall_forall. intros v Hv. apply in_map_iff in Hv. destruct Hv as (l & <- & _). apply Rmult_le_pos; [apply Hw|]. pose proof (Hg (k - l)%nat). pose proof (Hg (k + l)%nat). lra.
Qed.
Lemma power_scale c x T k : power (map (Rmult c) x) T k = c ^ 2 * power x T k.
Proof. unfold power. rewrite map_length. assert (E : nth k (map (Rmult c) x) 0 = c * nth k x 0) by (replace 0 with (c * 0) at 1 by ring; apply (map_nth (Rmult c))). rewrite E. destruct (_ || _); unfold Rdiv; ring. Qed.
Lemma folded_scale c x T udf lmax j : folded (map (Rmult c) x) T udf lmax j = c ^ 2 * folded x T udf lmax j.
Proof.
  unfold folded. rewrite map_length. apply fold_scale. intros i. unfold spread_power.
  assert (SH : forall m, shifted (map (Rmult c) x) T (lmax * 2 - 1) m = c ^ 2 * shifted x T (lmax * 2 - 1) m) by (intros m; unfold shifted; rewrite map_length; destruct (_ && _); [apply power_scale|ring]).
  destruct (_ && _); [|ring]. rewrite SH, Rmult_plus_distr_l. f_equal; [ring|].
  induction (seq 1 (lmax - 1)) as [|l ls IH]; cbn [map rsum]; [ring|]. rewrite IH, !SH. ring.
Qed.

(** Non-negative values, proportional to the magnitude of the input. *)
Theorem C83_scales : forall s span y c, (2 <= length s)%nat -> 0 < step_of s -> 0 < span -> sine_smooth s span = Ok y ->
  (forall v, In v y -> 0 <= v) /\ sine_smooth (with_vals s (map (Rmult c) (vals s))) span = Ok (map (Rmult (Rabs c)) y).
Proof.
  intros s span y c Hn Hd Hs H. pose proof (sine_outcome s span Hn Hd Hs) as E. cbv zeta in E. rewrite H in E.
  assert (LW : length (map (Rmult c) (vals s)) = length s) by (rewrite map_length; apply vals_length).
  assert (St : step_of (with_vals s (map (Rmult c) (vals s))) = step_of s) by (apply step_same, times_with_vals, LW).
  pose proof (sine_outcome (with_vals s (map (Rmult c) (vals s))) span ltac:(rewrite with_vals_length by exact LW; exact Hn) ltac:(rewrite St; exact Hd) Hs) as E'. cbv zeta in E'. rewrite St, with_vals_length, vals_with_vals in E' by exact LW.
  set (udf := 1854305 / 1000000 / span * step_of s) in *. set (lmax := Z.to_nat (Int_part (2 / udf) + 1)) in *. rewrite E'. destruct (Nat.leb lmax 2 && Nat.leb 4497 (length s + 3 * lmax - 2)); [discriminate|]. injection E as ->.
  split.
  - intros v Hv. unfold smoothed in Hv. apply in_map_iff in Hv. destruct Hv as (k & <- & _). cbv zeta. destruct (_ || _); apply sqrt_pos.
  - f_equal. unfold smoothed. rewrite !map_length, map_map. apply map_ext. intros k. cbv zeta. rewrite folded_scale.
    set (f := folded (vals s) (1 / step_of s) udf lmax (lmax * 2 - 1 - 1 + k)%nat).
    assert (HT : 0 < 1 / step_of s) by (apply Rdiv_lt_0_compat; lra). assert (HU : 0 < udf) by (unfold udf; apply Rmult_lt_0_compat; [apply Rdiv_lt_0_compat; lra|exact Hd]).
    assert (F0 : 0 <= f) by (unfold f, folded; apply fold_nonneg; intros j; apply spread_nonneg; [intros l; apply sine_weight_nonneg, HU|intros i; apply shifted_nonneg, HT]).
    assert (SQ : forall z, 0 <= z -> sqrt (c ^ 2 * z) = Rabs c * sqrt z). { intros z Hz. rewrite sqrt_mult by (try exact Hz; apply pow2_ge_0). f_equal. replace (c ^ 2) with (Rsqr c) by (unfold Rsqr; ring). apply sqrt_Rsqr_abs. }
    destruct (_ || _).
    + rewrite <- SQ by (apply Rmult_le_pos; lra). f_equal. ring.
    + rewrite <- SQ by (unfold Rdiv; apply Rmult_le_pos; [apply Rmult_le_pos; lra|lra]). f_equal. field. lra.
Qed.

(** Away from both ends: a weighted sum of squares over the window. *)
Definition sinc4 (udf : R) (l : nat) : R := 3 / 4 * udf * (if Nat.eqb l 0 then 1 else (sin (1570796 / 1000000 * INR l * udf) / (1570796 / 1000000 * INR l * udf)) ^ 4).
Lemma smoothed_nth x T udf lmax k : (k < length x)%nat -> nth k (smoothed x T udf lmax) 0 =
  (let g := folded x T udf lmax (lmax * 2 - 1 - 1 + k)%nat in if Nat.eqb k 0 || Nat.eqb k (length x - 1) then sqrt (g * T) else sqrt (g * T / 2)).
Proof.
  intros H. unfold smoothed. set (f := fun k => _). rewrite (nth_indep _ 0 (f 0%nat)) by (rewrite map_length, seq_length; exact H). rewrite map_nth, seq_nth by exact H. reflexivity.
Qed.
Theorem C83_interior : forall s span y lmax k, (2 <= length s)%nat -> 0 < step_of s -> 0 < span -> width_of (1854305 / 1000000 / span * step_of s) lmax ->
  sine_smooth s span = Ok y -> (lmax <= k)%nat -> (k + lmax + 1 < length s)%nat ->
  let udf := 1854305 / 1000000 / span * step_of s in
  let x i := nth i (vals s) 0 in
  nth k y 0 ^ 2 = sinc4 udf 0 * x k ^ 2 + rsum (map (fun l => sinc4 udf l * (x (k - l)%nat ^ 2 + x (k + l)%nat ^ 2)) (seq 1 (lmax - 1))).
Proof.
  intros s span y lmax k Hn Hd Hs [W1 W2] H K1 K2. cbv zeta. pose proof (sine_outcome s span Hn Hd Hs) as E. cbv zeta in E. set (udf := 1854305 / 1000000 / span * step_of s) in *.
  assert (HU : 0 < udf) by (unfold udf; apply Rmult_lt_0_compat; [apply Rdiv_lt_0_compat; lra|exact Hd]). destruct (width_exists udf HU) as [_ [V1 V2]]. set (lm := Z.to_nat (Int_part (2 / udf) + 1)) in *.
  assert (LM : lm = lmax). { assert (Q1 : INR lm < INR lmax + 1) by nra. assert (Q2 : INR lmax < INR lm + 1) by nra. rewrite <- S_INR in *. apply INR_lt in Q1, Q2. lia. }
  rewrite LM in E. rewrite H in E. destruct (_ && _); [discriminate|]. injection E as ->. set (T := 1 / step_of s). assert (HT : 0 < T) by (unfold T; apply Rdiv_lt_0_compat; lra).
  rewrite smoothed_nth by (rewrite vals_length; lia). cbv zeta. rewrite vals_length. destruct (Nat.eqb_spec k 0); [lia|]. destruct (Nat.eqb_spec k (length s - 1)); [lia|]. cbn [orb].
  unfold folded. rewrite fold_untouched by (intros l Hl; apply in_seq in Hl; rewrite vals_length; lia). rewrite vals_length. unfold spread_power.
  rewrite (proj2 (Nat.leb_le _ _)), (proj2 (Nat.ltb_lt _ _)) by lia. cbn [andb].
  assert (SH : forall i, (1 <= i < length s - 1)%nat -> shifted (vals s) T (lmax * 2 - 1) (lmax * 2 - 1 - 1 + i)%nat = 2 * nth i (vals s) 0 ^ 2 / T).
  { intros i Hi. unfold shifted. rewrite vals_length. rewrite (proj2 (Nat.leb_le _ _)) by lia. replace (lmax * 2 - 1 - 1 + i - (lmax * 2 - 1 - 1))%nat with i by lia. rewrite (proj2 (Nat.ltb_lt _ _)) by lia. cbn [andb]. unfold power. rewrite vals_length. destruct (Nat.eqb_spec i 0); [lia|]. destruct (Nat.eqb_spec i (length s - 1)); [lia|]. reflexivity. }
  set (sm := _ + rsum _). assert (P : sm * T / 2 = sinc4 udf 0 * nth k (vals s) 0 ^ 2 + rsum (map (fun l => sinc4 udf l * (nth (k - l) (vals s) 0 ^ 2 + nth (k + l) (vals s) 0 ^ 2)) (seq 1 (lmax - 1)))).
  { unfold sm. rewrite SH by lia. replace ((sine_weight udf 0 * (2 * nth k (vals s) 0 ^ 2 / T) + rsum (map (fun l => sine_weight udf l * (shifted (vals s) T (lmax * 2 - 1) (lmax * 2 - 1 - 1 + k - l)%nat + shifted (vals s) T (lmax * 2 - 1) (lmax * 2 - 1 - 1 + k + l)%nat)) (seq 1 (lmax - 1)))) * T / 2)
      with (sinc4 udf 0 * nth k (vals s) 0 ^ 2 + T / 2 * rsum (map (fun l => sine_weight udf l * (shifted (vals s) T (lmax * 2 - 1) (lmax * 2 - 1 - 1 + k - l)%nat + shifted (vals s) T (lmax * 2 - 1) (lmax * 2 - 1 - 1 + k + l)%nat)) (seq 1 (lmax - 1)))) by (unfold sine_weight at 2, sinc4; cbn [Nat.eqb]; field; lra).
    f_equal. assert (IN : forall l, In l (seq 1 (lmax - 1)) -> (1 <= l <= lmax - 1)%nat) by (intros l Hl; apply in_seq in Hl; lia). revert IN. generalize (seq 1 (lmax - 1)). induction l as [|l ls IH]; intros IN; cbn [map rsum]; [ring|]. rewrite <- IH by (intros; apply IN; right; assumption). pose proof (IN l (or_introl eq_refl)) as Hl.
    replace (lmax * 2 - 1 - 1 + k - l)%nat with (lmax * 2 - 1 - 1 + (k - l))%nat by lia. replace (lmax * 2 - 1 - 1 + k + l)%nat with (lmax * 2 - 1 - 1 + (k + l))%nat by lia. rewrite !SH by lia. unfold sine_weight at 1, sinc4. destruct l as [|l']; [lia|]. cbn [Nat.eqb]. field. pose proof (lt_0_INR (S l') ltac:(lia)). repeat split; lra. }
  rewrite P. apply pow2_sqrt. rewrite <- P. unfold Rdiv. apply Rmult_le_pos; [|lra]. apply Rmult_le_pos; [|lra]. unfold sm.
  apply Rplus_le_le_0_compat; [apply Rmult_le_pos; [apply sine_weight_nonneg, HU|apply shifted_nonneg, HT]|]. apply rsum_nonneg, Forall_forall. intros v Hv. apply in_map_iff in Hv. destruct Hv as (l & <- & _). apply Rmult_le_pos; [apply sine_weight_nonneg, HU|]. pose proof (shifted_nonneg (vals s) T (lmax * 2 - 1) (lmax * 2 - 1 - 1 + k - l)%nat HT). pose proof (shifted_nonneg (vals s) T (lmax * 2 - 1) (lmax * 2 - 1 - 1 + k + l)%nat HT). lra.
Qed.

(** Whatever the input, one bin near the top is always zero: the folding loop overwrites
    it with the value of a cell that is never filled (finding). *)
Theorem C83_zero_bin : forall s span y lmax, 0 < step_of s -> 0 < span -> width_of (1854305 / 1000000 / span * step_of s) lmax -> (2 <= lmax)%nat -> (lmax + 1 <= length s)%nat ->
  sine_smooth s span = Ok y -> nth (length s - lmax - 1) y 0 = 0.
Proof.
  intros s span y lmax Hd Hs [W1 W2] HL HN H. assert (Hn : (2 <= length s)%nat) by lia. pose proof (sine_outcome s span Hn Hd Hs) as E. cbv zeta in E. set (udf := 1854305 / 1000000 / span * step_of s) in *.
  assert (HU : 0 < udf) by (unfold udf; apply Rmult_lt_0_compat; [apply Rdiv_lt_0_compat; lra|exact Hd]). destruct (width_exists udf HU) as [_ [V1 V2]]. set (lm := Z.to_nat (Int_part (2 / udf) + 1)) in *.
  assert (LM : lm = lmax). { assert (Q1 : INR lm < INR lmax + 1) by nra. assert (Q2 : INR lmax < INR lm + 1) by nra. rewrite <- S_INR in *. apply INR_lt in Q1, Q2. lia. }
  rewrite LM in E. rewrite H in E. destruct (_ && _); [discriminate|]. injection E as ->. rewrite smoothed_nth by (rewrite vals_length; lia). cbv zeta.
  assert (Z : folded (vals s) (1 / step_of s) udf lmax (lmax * 2 - 1 - 1 + (length s - lmax - 1))%nat = 0).
  { unfold folded. rewrite vals_length. set (ll := (lmax * 2 - 1)%nat). set (ln := (ll - 1 + length s)%nat). set (g := spread_power _ _ _ _).
    replace (lmax - 1)%nat with (S (lmax - 2)) by lia. rewrite seq_S, fold_left_app. cbn [fold_left]. replace (1 + (lmax - 2))%nat with (lmax - 1)%nat by lia.
    set (g' := fold_left (fold_step ll ln) (seq 1 (lmax - 2)) g). unfold fold_step. replace (ll - 1 + (length s - lmax - 1))%nat with (ln - (lmax - 1) - 2)%nat by lia. unfold aset at 1. rewrite Nat.eqb_refl. unfold aset.
    destruct (Nat.eqb_spec (ll - (lmax - 1) - 2) (ll + (lmax - 1) - 1)); [lia|]. destruct (Nat.eqb_spec (ln + (lmax - 1) + 1) (ll + (lmax - 1) - 1)); [lia|].
    unfold g'. rewrite !fold_untouched by (intros l Hl; apply in_seq in Hl; lia). unfold g, spread_power. rewrite (proj2 (Nat.leb_gt (lmax - 1) (ll - (lmax - 1) - 2))) by lia. rewrite (proj2 (Nat.ltb_ge (ln + (lmax - 1) + 1) _)) by lia. rewrite andb_false_r. cbn [andb]. ring. }
  rewrite Z. destruct (_ || _); [replace (0 * (1 / step_of s)) with 0 by ring|replace (0 * (1 / step_of s) / 2) with 0 by (unfold Rdiv; ring)]; apply sqrt_0.
Qed.

(** A concrete spectrum: step 1 Hz, window chosen so that the unit is 1. *)
Definition flat_spectrum : signal := map (fun k => (INR k, 7)) (seq 0 12).
Example C83_instance : (2 <= length flat_spectrum)%nat /\ 0 < step_of flat_spectrum /\ width_of (1854305 / 1000000 / (1854305 / 1000000) * step_of flat_spectrum) 3 /\
  exists y, sine_smooth flat_spectrum (1854305 / 1000000) = Ok y /\ nth 8 y 0 = 0.
Proof.
  assert (S1 : step_of flat_spectrum = 1) by (unfold step_of, flat_spectrum; cbn; lra). assert (L : length flat_spectrum = 12%nat) by reflexivity.
  assert (W : width_of (1854305 / 1000000 / (1854305 / 1000000) * step_of flat_spectrum) 3) by (rewrite S1; split; [lia|]; replace (1854305 / 1000000 / (1854305 / 1000000) * 1) with 1 by (field; lra); cbn [INR]; lra).
  split; [rewrite L; lia|]. split; [lra|]. split; [exact W|]. destruct (C83_outcomes flat_spectrum (1854305 / 1000000) 3 ltac:(rewrite L; lia) ltac:(lra) ltac:(lra) W) as [_ Q].
  destruct Q as (y & E & _); [rewrite L; lia|]. exists y. split; [exact E|]. change 8%nat with (length flat_spectrum - 3 - 1)%nat. apply (C83_zero_bin flat_spectrum (1854305 / 1000000) y 3); [lra|lra|exact W|lia|rewrite L; lia|exact E].
Qed.
