(** C106: evenly spaced time axes in double precision. *)
From Coq Require Import Reals List Bool ZArith Lia Lra Psatz.
From Flocq Require Import Core IEEE754.BinarySingleNaN Plus_error Relative Sterbenz.
From Verif Require Import Base M_float P_float Prop_fdepth Prop_fcount M_spectra P_spectra M_ftime.
Import ListNotations.
Open Scope R_scope.

(** Specification: [x] is within [c] units of roundoff of [y]. *)
Definition rel (c x y : R) : Prop := Rabs (x - y) <= c * ueps * y.
(** Far from the smallest and the largest doubles. *)
Definition mid (y : R) : Prop := bpow radix2 (-1000) <= y <= bpow radix2 1000.

Lemma u48 : ueps * bpow radix2 48 = / 32.
Proof. unfold ueps. rewrite bpow_powerRZ. change (powerRZ (IZR radix2) 48) with (2 ^ 48). replace (2 ^ 53) with (2 ^ 48 * 32) by (simpl; lra). field. Qed.
Lemma u_tiny : ueps <= / 1000000.
Proof. unfold ueps. apply Rinv_le; [lra|]. simpl. lra. Qed.
Lemma mid_pos y : mid y -> 0 < y.
Proof. intros [H _]. eapply Rlt_le_trans; [apply bpow_gt_0|exact H]. Qed.

Lemma rel_up c c' x y : 0 <= y -> c <= c' -> rel c x y -> rel c' x y.
Proof. unfold rel. intros Hy Hc H. pose proof ueps_pos. assert (0 <= (c' - c) * (ueps * y)) by (apply Rmult_le_pos; [lra|apply Rmult_le_pos; lra]). lra. Qed.
Lemma rel_scale k c x y : 0 <= k -> rel c x y -> rel c (k * x) (k * y).
Proof. unfold rel. intros Hk H. replace (k * x - k * y) with (k * (x - y)) by ring. rewrite Rabs_mult, (Rabs_pos_eq k) by exact Hk. replace (c * ueps * (k * y)) with (k * (c * ueps * y)) by ring. apply Rmult_le_compat_l; assumption. Qed.
Lemma rel_refl x : rel 0 x x.
Proof. unfold rel. rewrite Rminus_diag_eq, Rabs_R0 by reflexivity. lra. Qed.
Lemma rel_bounds c x y : 0 <= c <= 1000 -> 0 <= y -> rel c x y -> y * (999 / 1000) <= x <= y * (1001 / 1000).
Proof.
  unfold rel. intros Hc Hy H. pose proof ueps_pos. pose proof u_tiny.
  assert (B : c * ueps * y <= / 1000 * y) by (apply Rmult_le_compat_r; [exact Hy|]; nra). apply Rabs_le_inv in H. lra.
Qed.
Lemma mid_half c x y : 0 <= c <= 1000 -> mid y -> rel c x y -> bpow radix2 (-1001) <= x <= bpow radix2 1001.
Proof.
  intros Hc M H. pose proof (mid_pos y M) as P. destruct (rel_bounds c x y Hc (Rlt_le _ _ P) H) as [A B]. destruct M as [M1 M2].
  replace (-1001)%Z with (-1000 + -1)%Z by reflexivity. replace 1001%Z with (1000 + 1)%Z by reflexivity. rewrite !bpow_plus.
  change (bpow radix2 (-1)) with (/ 2). change (bpow radix2 1) with 2. lra.
Qed.
Lemma rel_rnd c x y : 0 <= c <= 1000 -> mid y -> rel c x y -> rel (c + 1001 / 1000) (rnd x) y /\ Rabs (rnd x) < top64.
Proof.
  intros Hc M H. pose proof (mid_half c x y Hc M H) as [A B]. pose proof (mid_pos y M) as P. pose proof (bpow_gt_0 radix2 (-1001)) as P1.
  destruct (rnd_rel x) as (e & He & E). { rewrite Rabs_pos_eq by lra. eapply Rle_trans; [|exact A]. apply bpow_le. lia. }
  pose proof ueps_pos as U. pose proof u_tiny as U'.
  assert (K : rel (c + 1001 / 1000) (rnd x) y).
  { unfold rel in *. rewrite E. replace (x * (1 + e) - y) with ((x - y) + e * x) by ring. eapply Rle_trans; [apply Rabs_triang|].
    rewrite Rabs_mult, (Rabs_pos_eq x) by lra. apply Rabs_le_inv in H.
    assert (c * ueps * y <= / 1000 * y) by (apply Rmult_le_compat_r; [lra|]; nra).
    assert (Rabs e * x <= ueps * (y * (1001 / 1000))) by (apply Rmult_le_compat; [apply Rabs_pos|lra|exact He|lra]).
    assert (Rabs (x - y) <= c * ueps * y) by (apply Rabs_le; lra). lra. }
  split; [exact K|]. pose proof (mid_half (c + 1001 / 1000) (rnd x) y) as Q.
  assert (L : Rabs (rnd x) <= bpow radix2 1001).
  { rewrite Rabs_pos_eq by (apply rnd_nonneg; lra). apply (rnd_between x 0 (bpow radix2 1001)); [apply dbl_0|apply generic_format_bpow; unfold FLT_exp; lia|lra]. }
  eapply Rle_lt_trans; [exact L|]. apply bpow_lt. lia.
Qed.
(** The operations, when the exact result is close to a number of the middle range. *)
Section Ops.
Variables (c y : R).
Hypothesis (Hc : 0 <= c <= 1000) (M : mid y).
Lemma fmul_rel a b : fin a = true -> fin b = true -> rel c (val a * val b) y -> fin (fmul a b) = true /\ rel (c + 1001 / 1000) (val (fmul a b)) y.
Proof. intros Fa Fb H. destruct (rel_rnd c _ y Hc M H) as [K L]. destruct (fmul_fin a b Fa Fb L) as [F V]. split; [exact F|]. rewrite V. exact K. Qed.
Lemma fdiv_rel a b : fin a = true -> val b <> 0 -> rel c (val a / val b) y -> fin (fdiv a b) = true /\ rel (c + 1001 / 1000) (val (fdiv a b)) y.
Proof. intros Fa Fb H. destruct (rel_rnd c _ y Hc M H) as [K L]. destruct (fdiv_fin a b Fa Fb L) as [F V]. split; [exact F|]. rewrite V. exact K. Qed.
Lemma fadd_rel a b : fin a = true -> fin b = true -> rel c (val a + val b) y -> fin (fadd a b) = true /\ rel (c + 1001 / 1000) (val (fadd a b)) y.
Proof. intros Fa Fb H. destruct (rel_rnd c _ y Hc M H) as [K L]. destruct (fadd_fin a b Fa Fb L) as [F V]. split; [exact F|]. rewrite V. exact K. Qed.
Lemma fsub_rel a b : fin a = true -> fin b = true -> rel c (val a - val b) y -> fin (fsub a b) = true /\ rel (c + 1001 / 1000) (val (fsub a b)) y.
Proof. intros Fa Fb H. destruct (rel_rnd c _ y Hc M H) as [K L]. destruct (fsub_fin a b Fa Fb L) as [F V]. split; [exact F|]. rewrite V. exact K. Qed.
End Ops.

Lemma fofZ_ok k : (Z.abs k <= 2 ^ 53)%Z -> fin (fofZ k) = true /\ val (fofZ k) = IZR k.
Proof. intros H. destruct (lit_ok k 0 H ltac:(lia)) as [F V]. split; [exact F|]. unfold fofZ. rewrite V. change (bpow radix2 0) with 1. ring. Qed.
Lemma fadd_f0 x : fin x = true -> fin (fadd x f0) = true /\ val (fadd x f0) = val x.
Proof.
  intros F. assert (E : rnd (val x + val f0) = val x) by (rewrite f0_val, Rplus_0_r; apply rnd_id, val_dbl).
  destruct (fadd_fin x f0 F eq_refl) as [G V]; [rewrite E; apply val_lt_top|]. split; [exact G|]. rewrite V. exact E.
Qed.
Lemma fsub_f0 x : fin x = true -> fin (fsub x f0) = true /\ val (fsub x f0) = val x.
Proof.
  intros F. assert (E : rnd (val x - val f0) = val x) by (rewrite f0_val, Rminus_0_r; apply rnd_id, val_dbl).
  destruct (fsub_fin x f0 F eq_refl) as [G V]; [rewrite E; apply val_lt_top|]. split; [exact G|]. rewrite V. exact E.
Qed.
Lemma fmul_zero x : fin x = true -> fin (fmul (fofZ 0) x) = true /\ val (fmul (fofZ 0) x) = 0.
Proof.
  intros F. destruct (fofZ_ok 0 ltac:(lia)) as [F0 V0]. assert (E : rnd (val (fofZ 0) * val x) = 0) by (rewrite V0, Rmult_0_l; apply rnd_0).
  destruct (fmul_fin (fofZ 0) x F0 F) as [G V]; [rewrite E, Rabs_R0; apply bpow_gt_0|]. split; [exact G|]. rewrite V. exact E.
Qed.

(** Entries of np.linspace. *)
Lemma linspace_entries a b n : (2 <= n)%Z -> fin (fdiv (fsub b a) (fofZ (n - 1))) = true -> val (fdiv (fsub b a) (fofZ (n - 1))) <> 0 ->
  exists l, linspace_f a b n = Ok l /\ List.length l = Z.to_nat n /\ nth (Z.to_nat (n - 1)) l f0 = b /\
    (forall k, (k < Z.to_nat (n - 1))%nat -> nth k l f0 = fadd (fmul (fofZ (Z.of_nat k)) (fdiv (fsub b a) (fofZ (n - 1)))) a).
Proof.
  intros Hn F V. unfold linspace_f. destruct (Z.ltb_spec n 0); [lia|]. destruct (Z.eqb_spec n 0); [lia|]. destruct (Z.eqb_spec n 1); [lia|].
  assert (Q : feq (fdiv (fsub b a) (fofZ (n - 1))) f0 = false).
  { destruct (feq _ f0) eqn:Q; [|reflexivity]. apply feq_val in Q; [|exact F|reflexivity]. rewrite f0_val in Q. contradiction. }
  cbv zeta. eexists. split; [reflexivity|]. rewrite Q. split; [rewrite app_length, map_length, seq_length; cbn; lia|]. split.
  - rewrite app_nth2 by (rewrite map_length, seq_length; lia). rewrite map_length, seq_length, Nat.sub_diag. reflexivity.
  - intros k Hk. rewrite app_nth1 by (rewrite map_length, seq_length; lia).
    rewrite (nth_indep _ _ ((fun k => fadd (fmul (fofZ (Z.of_nat k)) (fdiv (fsub b a) (fofZ (n - 1)))) a) 0%nat)) by (rewrite map_length, seq_length; lia).
    rewrite (map_nth (fun k => fadd (fmul (fofZ (Z.of_nat k)) (fdiv (fsub b a) (fofZ (n - 1)))) a)). rewrite seq_nth by lia. reflexivity.
Qed.

(** An axis of [n] entries from [a], which is 0 or one step, to [b], in steps of [d]. *)
Section Grid.
Variables (d al : R) (a b : f64) (n : Z).
Hypothesis (Hd : bpow radix2 (-999) <= d) (Hn : (2 <= n <= 2 ^ 48)%Z) (Hnd : IZR n * d <= bpow radix2 999).
Hypothesis (Ha : fin a = true) (Va : val a = al * d) (Hal : 0 <= al <= 1).
Hypothesis (Hb : fin b = true) (Vb : rel (1001 / 1000) (val b) ((IZR (n - 1) + al) * d)).

Let N := IZR (n - 1).
Let step := fdiv (fsub b a) (fofZ (n - 1)).
Let s := val step.

Lemma dpos : 0 < d. Proof using Hd. eapply Rlt_le_trans; [apply bpow_gt_0|exact Hd]. Qed.
Lemma N_ge1 : 1 <= N. Proof using Hn. unfold N. apply (IZR_le 1). lia. Qed.
Lemma N_n : N = IZR n - 1. Proof using. unfold N. rewrite minus_IZR. reflexivity. Qed.
Lemma nu : IZR n * ueps <= / 32.
Proof using Hn.
  rewrite <- u48, Rmult_comm. apply Rmult_le_compat_l; [apply Rlt_le, ueps_pos|]. change (bpow radix2 48) with (IZR (2 ^ 48)). apply IZR_le. lia.
Qed.
(** Everything between half a step and twice the length is in the middle range. *)
Lemma mid_in x : d / 2 <= x <= 2 * (IZR n * d) -> mid x.
Proof using Hd Hnd.
  intros [A B]. split.
  - replace (-1000)%Z with (-999 + -1)%Z by reflexivity. rewrite bpow_plus. change (bpow radix2 (-1)) with (/ 2). lra.
  - replace 1000%Z with (999 + 1)%Z by reflexivity. rewrite bpow_plus. change (bpow radix2 1) with 2. lra.
Qed.
Lemma delta_ok : fin (fsub b a) = true /\ rel (3003 / 1000) (val (fsub b a)) (N * d) /\ rel (1001 / 1000) (val (fsub b a)) (val b - val a).
Proof using All.
  pose proof N_ge1 as HN. pose proof dpos as D. pose proof N_n as NE.
  assert (R1 : rel (2002 / 1000) (val b - val a) (N * d)).
  { unfold rel in *. rewrite Va. fold N in Vb. replace (val b - al * d - N * d) with (val b - (N + al) * d) by ring. eapply Rle_trans; [exact Vb|].
    pose proof ueps_pos as U. assert (0 <= ueps * d) by (apply Rmult_le_pos; lra). assert (ueps * d * (N + al) <= ueps * d * (2 * N)) by (apply Rmult_le_compat_l; lra). lra. }
  assert (M : mid (N * d)) by (apply mid_in; split; [nra|rewrite NE; nra]).
  destruct (fsub_rel (2002 / 1000) (N * d) ltac:(lra) M b a Hb Ha R1) as [F R2]. split; [exact F|]. split; [eapply rel_up; [nra| |exact R2]; lra|].
  assert (B : N * d * (999 / 1000) <= val b - val a <= N * d * (1001 / 1000)) by (apply (rel_bounds (2002 / 1000)); [lra|nra|exact R1]).
  assert (M' : mid (val b - val a)) by (apply mid_in; nra).
  destruct (fsub_rel 0 (val b - val a) ltac:(lra) M' b a Hb Ha (rel_refl _)) as [_ R3]. eapply rel_up; [nra| |exact R3]. lra.
Qed.
Lemma step_ok : fin step = true /\ rel (4004 / 1000) s d /\ rel (1001 / 1000) s (val (fsub b a) / N).
Proof using All.
  destruct delta_ok as (F & R1 & _). pose proof N_ge1 as HN. pose proof dpos as D.
  destruct (fofZ_ok (n - 1) ltac:(lia)) as [FN VN]. fold N in VN.
  assert (NZ : val (fofZ (n - 1)) <> 0) by (rewrite VN; lra).
  assert (R2 : rel (3003 / 1000) (val (fsub b a) / val (fofZ (n - 1))) d).
  { rewrite VN. replace d with (/ N * (N * d)) by (field; lra). unfold Rdiv. rewrite (Rmult_comm (val _)). apply rel_scale; [apply Rlt_le, Rinv_0_lt_compat; lra|exact R1]. }
  assert (M : mid d) by (apply mid_in; split; [lra|]; rewrite N_n in HN; nra).
  destruct (fdiv_rel (3003 / 1000) d ltac:(lra) M (fsub b a) (fofZ (n - 1)) F NZ R2) as [F' R3]. split; [exact F'|]. split; [eapply rel_up; [lra| |exact R3]; lra|].
  assert (B : d * (999 / 1000) <= val (fsub b a) / N <= d * (1001 / 1000)) by (rewrite VN in R2; apply (rel_bounds (3003 / 1000)); [lra|lra|exact R2]).
  assert (M' : mid (val (fsub b a) / val (fofZ (n - 1)))) by (rewrite VN; apply mid_in; rewrite N_n in HN; nra).
  destruct (fdiv_rel 0 _ ltac:(lra) M' (fsub b a) (fofZ (n - 1)) F NZ (rel_refl _)) as [_ R4]. rewrite VN in R4. eapply rel_up; [|  |exact R4]; lra.
Qed.
Lemma s_bounds : d * (999 / 1000) <= s <= d * (1001 / 1000).
Proof using All. destruct step_ok as (_ & R & _). pose proof dpos. apply (rel_bounds (4004 / 1000)); [lra|lra|exact R]. Qed.
(** An inner entry: close to its exact place, and to that of the rounded step. *)
Lemma entry_ok k : (0 <= k < n - 1)%Z -> let y := fadd (fmul (fofZ k) step) a in
  fin y = true /\ rel 7 (val y) ((IZR k + al) * d) /\ rel (2002 / 1000) (val y) (IZR k * s + val a) /\ (k = 0%Z -> val y = val a).
Proof using All.
  intros Hk y. destruct step_ok as (F & R1 & _). pose proof s_bounds as SB. pose proof dpos as D. pose proof N_ge1 as HN. pose proof N_n as NE.
  destruct (fofZ_ok k ltac:(lia)) as [Fk Vk].
  destruct (Z.eq_dec k 0) as [->|K0].
  - destruct (fmul_zero step F) as [F1 V1]. assert (E : rnd (val (fmul (fofZ 0) step) + val a) = val a) by (rewrite V1, Rplus_0_l; apply rnd_id, val_dbl).
    destruct (fadd_fin _ a F1 Ha) as [Fy Vy]; [rewrite E; apply val_lt_top|]. fold y in Fy, Vy. rewrite E in Vy. split; [exact Fy|]. rewrite Vy, Rplus_0_l, Rmult_0_l, Rplus_0_l.
    pose proof ueps_pos. assert (0 <= val a) by (rewrite Va; nra).
    split; [rewrite Va; apply (rel_up 0); [nra|lra|apply rel_refl]|]. split; [apply (rel_up 0); [lra|lra|apply rel_refl]|reflexivity].
  - assert (K1 : 1 <= IZR k) by (apply (IZR_le 1); lia). assert (K2 : IZR k <= N) by (apply IZR_le; lia). fold N in K2.
    assert (KD : d <= IZR k * d <= N * d) by nra. assert (KS : IZR k * d * (999 / 1000) <= IZR k * s <= IZR k * d * (1001 / 1000)) by nra.
    assert (M1 : mid (IZR k * d)) by (apply mid_in; nra).
    assert (R2 : rel (4004 / 1000) (val (fofZ k) * val step) (IZR k * d)) by (rewrite Vk; apply rel_scale; [lra|exact R1]).
    destruct (fmul_rel (4004 / 1000) _ ltac:(lra) M1 (fofZ k) step Fk F R2) as [F2 R3].
    assert (M2 : mid (IZR k * s)) by (apply mid_in; nra).
    destruct (fmul_rel 0 (IZR k * s) ltac:(lra) M2 (fofZ k) step Fk F) as [_ R4]; [rewrite Vk; apply rel_refl|].
    assert (AD : 0 <= al * d <= d) by nra.
    assert (W : forall c q x, 0 <= c -> 0 <= q -> rel c x q -> rel c (x + val a) (q + val a)).
    { intros c q x Hc Hq H. unfold rel in *. replace (x + val a - (q + val a)) with (x - q) by ring. eapply Rle_trans; [exact H|]. apply Rmult_le_compat_l; [pose proof ueps_pos; nra|rewrite Va; lra]. }
    assert (R5 : rel (5005 / 1000) (val (fmul (fofZ k) step) + val a) (IZR k * d + val a)) by (apply W; [lra|lra|eapply rel_up; [ | |exact R3]; lra]).
    assert (R6 : rel (1001 / 1000) (val (fmul (fofZ k) step) + val a) (IZR k * s + val a)) by (apply W; [lra|lra|eapply rel_up; [ | |exact R4]; lra]).
    assert (M3 : mid (IZR k * d + val a)) by (apply mid_in; rewrite Va; nra).
    assert (M4 : mid (IZR k * s + val a)) by (apply mid_in; rewrite Va; nra).
    destruct (fadd_rel (5005 / 1000) _ ltac:(lra) M3 _ a F2 Ha R5) as [F3 R7]. destruct (fadd_rel (1001 / 1000) _ ltac:(lra) M4 _ a F2 Ha R6) as [_ R8].
    fold y in F3, R7, R8. split; [exact F3|]. split; [|split; [|intros; contradiction]].
    + replace ((IZR k + al) * d) with (IZR k * d + val a) by (rewrite Va; ring). eapply rel_up; [ | |exact R7]; [rewrite Va|]; lra.
    + eapply rel_up; [ | |exact R8]; [rewrite Va|]; lra.
Qed.
Lemma grid : exists l, linspace_f a b n = Ok l /\ List.length l = Z.to_nat n /\
  (forall k, (k < Z.to_nat n)%nat -> fin (nth k l f0) = true /\ rel 7 (val (nth k l f0)) ((INR k + al) * d)) /\
  val (nth 0 l f0) = val a /\ nth (Z.to_nat n - 1) l f0 = b /\
  (forall k, (S k < Z.to_nat n)%nat -> val (nth k l f0) < val (nth (S k) l f0)).
Proof using All.
  destruct step_ok as (F & _ & R2). destruct delta_ok as (FD & _ & R1). pose proof s_bounds as SB. pose proof dpos as D. pose proof N_ge1 as HN. pose proof N_n as NE.
  assert (S0 : val step <> 0) by (fold s; lra).
  destruct (linspace_entries a b n ltac:(lia) F S0) as (l & El & Ll & Lb & Lk). exists l. split; [exact El|]. split; [exact Ll|].
  replace (Z.to_nat n - 1)%nat with (Z.to_nat (n - 1)) by lia.
  assert (A0 : 0 <= val a <= d) by (rewrite Va; nra). pose proof ueps_pos as U. pose proof nu as NU.
  split; [|split; [|split; [exact Lb|]]].
  - intros k Hk. destruct (Nat.eq_dec k (Z.to_nat (n - 1))) as [->|Hne].
    + rewrite Lb. split; [exact Hb|]. rewrite INR_IZR_INZ, Z2Nat.id by lia. eapply rel_up; [ | |exact Vb]; [fold N; nra|lra].
    + rewrite Lk by lia. destruct (entry_ok (Z.of_nat k) ltac:(lia)) as (Fy & Ry & _). split; [exact Fy|]. rewrite INR_IZR_INZ. exact Ry.
  - rewrite Lk by lia. apply (entry_ok 0 ltac:(lia)). reflexivity.
  - intros k Hk. rewrite (Lk k) by lia. destruct (entry_ok (Z.of_nat k) ltac:(lia)) as (Fy & _ & Ry & _). unfold rel in Ry. apply Rabs_le_inv in Ry.
    change (Z.of_nat k) with (Z.of_nat k) in *. set (kk := IZR (Z.of_nat k)) in *. assert (K0 : 0 <= kk) by (apply (IZR_le 0); lia).
    assert (KN : kk <= N - 1) by (unfold kk, N; rewrite <- minus_IZR; apply IZR_le; lia).
    assert (T : ueps * (kk * s + val a) <= / 30 * d).
    { apply Rle_trans with (ueps * (IZR n * (d * (1001 / 1000)))); [apply Rmult_le_compat_l; [lra|]; rewrite NE in KN; nra|]. rewrite <- Rmult_assoc, (Rmult_comm ueps). nra. }
    destruct (Nat.eq_dec (S k) (Z.to_nat (n - 1))) as [->|Hne].
    + rewrite Lb. unfold rel in R1, R2. apply Rabs_le_inv in R1, R2. fold s in R2.
      set (q := val (fsub b a)) in *. assert (Q : q = N * (q / N)) by (field; lra). set (qn := q / N) in *.
      assert (BB : val b - val a <= 2 * (IZR n * d)).
      { assert (P0 : 0 <= (IZR (n - 1) + al) * d) by (fold N; nra). destruct (rel_bounds (1001 / 1000) _ _ ltac:(lra) P0 Vb) as [_ B2]. fold N in B2. nra. }
      assert (T2 : ueps * (val b - val a) <= / 15 * d).
      { apply Rle_trans with (ueps * (2 * (IZR n * d))); [apply Rmult_le_compat_l; lra|]. replace (ueps * (2 * (IZR n * d))) with (2 * d * (IZR n * ueps)) by ring. nra. }
      assert (QN : 0 <= qn <= d * 2) by (pose proof u_tiny; assert (1001 / 1000 * ueps * qn <= / 2 * qn \/ qn < 0) by (destruct (Rle_dec 0 qn); [left; nra|right; lra]); destruct H0; nra).
      assert (T3 : N * (ueps * qn) <= / 15 * d).
      { replace (N * (ueps * qn)) with ((N * ueps) * qn) by ring. apply Rle_trans with (/ 32 * (d * 2)); [apply Rmult_le_compat; [nra|lra| |lra]; rewrite NE; nra|lra]. }
      assert (T4 : N * s <= N * qn + 1001 / 1000 * (N * (ueps * qn))) by (replace (N * qn + 1001 / 1000 * (N * (ueps * qn))) with (N * (qn + 1001 / 1000 * ueps * qn)) by ring; apply Rmult_le_compat_l; lra).
      assert (T5 : kk * s <= N * s - s) by (replace (N * s - s) with ((N - 1) * s) by ring; apply Rmult_le_compat_r; lra).
      fold step. lra.
    + rewrite (Lk (S k)) by lia. destruct (entry_ok (Z.of_nat (S k)) ltac:(lia)) as (Fz & _ & Rz & _). unfold rel in Rz. apply Rabs_le_inv in Rz.
      replace (IZR (Z.of_nat (S k))) with (kk + 1) in Rz by (unfold kk; rewrite Nat2Z.inj_succ, succ_IZR; reflexivity).
      assert (ueps * ((kk + 1) * s + val a) <= / 30 * d + ueps * s) by lra. assert (ueps * s <= / 1000 * d) by (pose proof u_tiny; nra). fold step. lra.
Qed.
End Grid.

(** ** The times of a motion and the first column of one-column data *)

(** Spacings and numbers of samples in the ordinary range. *)
Definition ordinary (dt : f64) (n : Z) : Prop :=
  fin dt = true /\ bpow radix2 (-999) <= val dt /\ (2 <= n <= 2 ^ 48)%Z /\ IZR n * val dt <= bpow radix2 999.
(** Specification: [l] has [n] finite, strictly increasing entries, number k within seven units
    of roundoff of (k + al) * d. *)
Definition even_axis (d al : R) (n : Z) (l : list f64) : Prop :=
  List.length l = Z.to_nat n /\
  (forall k, (k < List.length l)%nat -> fin (nth k l f0) = true /\ Rabs (val (nth k l f0) - (INR k + al) * d) <= 7 * ueps * ((INR k + al) * d)) /\
  (forall k, (S k < List.length l)%nat -> val (nth k l f0) < val (nth (S k) l f0)).

Lemma ord_pos dt n : ordinary dt n -> 0 < val dt.
Proof. intros (_ & H & _). eapply Rlt_le_trans; [apply bpow_gt_0|exact H]. Qed.
Lemma product_rel x y k d : fin x = true -> fin y = true -> val x * val y = k * d -> 1 <= k -> bpow radix2 (-999) <= d -> k * d <= bpow radix2 999 ->
  fin (fmul x y) = true /\ rel (1001 / 1000) (val (fmul x y)) (k * d).
Proof.
  intros Fx Fy E K D B. assert (P : 0 < d) by (eapply Rlt_le_trans; [apply bpow_gt_0|exact D]).
  assert (M : mid (k * d)). { split; [apply Rle_trans with d; [eapply Rle_trans; [|exact D]; apply bpow_le; lia|nra]|eapply Rle_trans; [exact B|apply bpow_le; lia]]. }
  destruct (fmul_rel 0 (k * d) ltac:(lra) M x y Fx Fy) as [F R]; [rewrite E; apply rel_refl|]. split; [exact F|]. eapply rel_up; [nra| |exact R]. lra.
Qed.

Lemma last_nth : forall l : list f64, last l f0 = nth (List.length l - 1) l f0.
Proof.
  induction l as [|x l IH]; [reflexivity|]. destruct l as [|y l]; [reflexivity|]. change (last (x :: y :: l) f0) with (last (y :: l) f0). rewrite IH.
  cbn [List.length]. replace (S (S (List.length l)) - 1)%nat with (S (S (List.length l) - 1)) by lia. reflexivity.
Qed.

(** The times start at 0, end at the rounded product of spacing and number of steps, are
    strictly increasing, and each is within seven units of roundoff of its multiple of the
    spacing. *)
Theorem C106_times : forall dt n, ordinary dt n -> exists l, time_f dt n = Ok l /\ even_axis (val dt) 0 n l /\
  val (nth 0 l f0) = 0 /\ last l f0 = fmul dt (fofZ (n - 1)).
Proof.
  intros dt n O. pose proof (ord_pos dt n O) as P. destruct O as (F & D & Hn & B).
  destruct (fofZ_ok (n - 1) ltac:(lia)) as [FN VN]. assert (N1 : 1 <= IZR (n - 1)) by (apply (IZR_le 1); lia).
  destruct (product_rel dt (fofZ (n - 1)) (IZR (n - 1)) (val dt) F FN) as [Fb Rb]; [rewrite VN; ring|exact N1|exact D|rewrite minus_IZR in *; nra|].
  destruct (grid (val dt) 0 f0 (fmul dt (fofZ (n - 1))) n D Hn B eq_refl ltac:(rewrite f0_val; ring) ltac:(lra) Fb ltac:(rewrite Rplus_0_r; exact Rb)) as (l & El & Ll & Lk & L0 & Lb & Ls).
  exists l. split; [exact El|]. unfold even_axis. rewrite !Ll. split; [split; [reflexivity|]; split; [exact Lk|exact Ls]|]. split; [rewrite L0; apply f0_val|].
  rewrite last_nth, Ll. exact Lb.
Qed.

(** A motion of one sample has the time 0, one without samples none. *)
Theorem C106_times_short : forall dt, fin dt = true ->
  (exists x, time_f dt 1 = Ok [x] /\ fin x = true /\ val x = 0) /\ time_f dt 0 = Ok [] /\ (forall n, (n < 0)%Z -> time_f dt n = Err ValueError).
Proof.
  intros dt F. split; [|split; [reflexivity|]].
  - unfold time_f, linspace_f. cbn [Z.ltb Z.eqb Z.sub Z.compare Z.pos_sub Z.opp Z.add]. eexists. split; [reflexivity|].
    destruct (fofZ_ok 0 ltac:(lia)) as [F0 V0].
    assert (E : rnd (val dt * val (fofZ 0)) = 0) by (rewrite V0, Rmult_0_r; apply rnd_0).
    destruct (fmul_fin dt (fofZ 0) F F0) as [F1 V1]; [rewrite E, Rabs_R0; apply bpow_gt_0|]. destruct (fsub_f0 _ F1) as [F2 _]. destruct (fmul_zero _ F2) as [F3 V3].
    destruct (fadd_f0 _ F3) as [F4 V4]. split; [exact F4|]. rewrite V4. exact V3.
  - intros n Hn. unfold time_f, linspace_f. destruct (Z.ltb_spec n 0); [reflexivity|lia].
Qed.

Lemma get_f_nth l k : (k < List.length l)%nat -> get_f l k = Ok (nth k l f0).
Proof. intros H. unfold get_f. rewrite (nth_error_nth' l f0 H). reflexivity. Qed.
Lemma fabs_ok x : fin x = true -> fin (fabs x) = true /\ val (fabs x) = Rabs (val x).
Proof. Transparent fabs. intros F. unfold fabs, fin, val in *. Opaque fabs. split; [destruct x; exact F|apply B2R_Babs]. Qed.
Lemma tol8_ok : fin tol8 = true /\ bpow radix2 (-27) <= val tol8.
Proof.
  destruct (lit_ok 6044629098073146 (-79) ltac:(lia) ltac:(lia)) as [F V]. split; [exact F|]. unfold tol8. rewrite V.
  replace (-27)%Z with (52 + -79)%Z by reflexivity. rewrite bpow_plus. apply Rmult_le_compat_r; [apply bpow_ge_0|]. apply IZR_le. reflexivity || (vm_compute; discriminate).
Qed.
(** Of two neighbours of an axis, the difference. *)
Lemma first_step d n l : (2 <= n <= 2 ^ 48)%Z -> bpow radix2 (-999) <= d -> IZR n * d <= bpow radix2 999 -> even_axis d 1 n l ->
  fin (fsub (nth 1 l f0) (nth 0 l f0)) = true /\ rel 23 (val (fsub (nth 1 l f0) (nth 0 l f0))) d.
Proof.
  intros Hn D B (Ll & Lk & _). assert (P : 0 < d) by (eapply Rlt_le_trans; [apply bpow_gt_0|exact D]).
  destruct (Lk 1%nat ltac:(lia)) as [F1 R1], (Lk 0%nat ltac:(lia)) as [F0 R0]. cbn [INR] in R1, R0.
  assert (R : rel 21 (val (nth 1 l f0) - val (nth 0 l f0)) d).
  { unfold rel. apply Rabs_le_inv in R1, R0. apply Rabs_le. lra. }
  assert (M : mid d). { split; [eapply Rle_trans; [|exact D]; apply bpow_le; lia|]. apply Rle_trans with (IZR n * d); [|eapply Rle_trans; [exact B|apply bpow_le; lia]]. assert (2 <= IZR n) by (apply (IZR_le 2); lia). nra. }
  destruct (fsub_rel 21 d ltac:(lra) M _ _ F1 F0 R) as [F R']. split; [exact F|]. eapply rel_up; [lra| |exact R']. lra.
Qed.

(** One-column data with a spacing is always accepted: the check of the spacing cannot fail.
    The axis starts at exactly one spacing (not at 0). *)
Theorem C106_axis_accepted : forall delta n, ordinary delta n -> exists l, axis_f delta n = Ok l /\ even_axis (val delta) 1 n l /\
  val (nth 0 l f0) = val delta /\ last l f0 = fmul (fofZ n) delta.
Proof.
  intros dt n O. pose proof (ord_pos dt n O) as P. destruct O as (F & D & Hn & B).
  destruct (fofZ_ok n ltac:(lia)) as [FN VN]. assert (N1 : 1 <= IZR n) by (apply (IZR_le 1); lia).
  destruct (product_rel (fofZ n) dt (IZR n) (val dt) FN F) as [Fb Rb]; [rewrite VN; ring|exact N1|exact D|exact B|].
  destruct (grid (val dt) 1 dt (fmul (fofZ n) dt) n D Hn B F ltac:(ring) ltac:(lra) Fb) as (l & El & Ll & Lk & L0 & Lb & Ls).
  { replace (IZR (n - 1) + 1) with (IZR n) by (rewrite minus_IZR; ring). exact Rb. }
  assert (EA : even_axis (val dt) 1 n l) by (unfold even_axis; rewrite !Ll; split; [reflexivity|]; split; [exact Lk|exact Ls]).
  exists l. split; [|split; [exact EA|]; split; [exact L0|rewrite last_nth, Ll; exact Lb]].
  unfold axis_f. rewrite El. cbn [bind]. rewrite !get_f_nth by lia. cbn [bind].
  destruct (first_step (val dt) n l Hn D B EA) as [Fs Rs]. set (st := fsub (nth 1 l f0) (nth 0 l f0)) in *.
  pose proof ueps_pos as U. pose proof u_tiny as U'.
  unfold rel in Rs. destruct (rnd_plus' (val st) (- val dt)) as (e & He & Ee); [apply val_dbl|apply generic_format_opp, val_dbl|].
  change (val st + - val dt) with (val st - val dt) in Ee.
  assert (Bd : Rabs (rnd (val st - val dt)) <= 24 * ueps * val dt).
  { rewrite Ee, Rabs_mult. assert (Rabs (1 + e) <= 1 + ueps) by (eapply Rle_trans; [apply Rabs_triang|]; rewrite Rabs_R1; lra).
    apply Rle_trans with (23 * ueps * val dt * (1 + ueps)); [apply Rmult_le_compat; [apply Rabs_pos|apply Rabs_pos|exact Rs|exact H]|]. assert (0 <= ueps * val dt) by nra. nra. }
  assert (Bt : Rabs (rnd (val st - val dt)) < top64).
  { eapply Rle_lt_trans; [exact Bd|]. apply Rle_lt_trans with (val dt); [nra|]. eapply Rle_lt_trans; [apply Rle_abs|apply val_lt_top]. }
  destruct (fsub_fin st dt Fs F Bt) as [F2 V2]. destruct (fabs_ok _ F2) as [F3 V3].
  assert (Q : 0 <= Rabs (rnd (val st - val dt)) / val dt <= bpow radix2 (-48)).
  { split; [apply Rmult_le_pos; [apply Rabs_pos|apply Rlt_le, Rinv_0_lt_compat; exact P]|]. apply Rmult_le_reg_r with (val dt); [exact P|]. unfold Rdiv. rewrite Rmult_assoc, Rinv_l, Rmult_1_r by lra.
    eapply Rle_trans; [exact Bd|]. apply Rmult_le_compat_r; [lra|]. assert (E32 : bpow radix2 (-48) = 32 * ueps) by (unfold ueps; rewrite bpow_powerRZ; change (powerRZ (IZR radix2) (-48)) with (/ 2 ^ 48); replace (2 ^ 53) with (2 ^ 48 * 32) by (simpl; lra); field; apply pow_nonzero; lra). lra. }
  assert (Q' : 0 <= rnd (Rabs (rnd (val st - val dt)) / val dt) <= bpow radix2 (-48)) by (apply rnd_between; [apply dbl_0|apply generic_format_bpow; unfold FLT_exp; lia|exact Q]).
  rewrite <- V2, <- V3 in Q'. destruct (fdiv_fin _ dt F3 ltac:(lra)) as [F4 V4]; [rewrite Rabs_pos_eq by lra; eapply Rle_lt_trans; [apply Q'|apply bpow_lt; lia]|].
  destruct tol8_ok as [Ft Vt]. assert (OK : fle (fdiv (fabs (fsub st dt)) dt) tol8 = true).
  { apply fle_val; [exact F4|exact Ft|]. rewrite V4. eapply Rle_trans; [apply Q'|]. eapply Rle_trans; [|exact Vt]. apply bpow_le. lia. }
  rewrite OK. reflexivity.
Qed.

(** Fewer than two entries: IndexError. *)
Theorem C106_axis_short : forall delta n, (0 <= n < 2)%Z -> axis_f delta n = Err IndexError.
Proof. intros delta n H. unfold axis_f, linspace_f. assert (n = 0 \/ n = 1)%Z as [-> | ->] by lia; reflexivity. Qed.

(** A spacing of zero, an infinite one or NaN: the check fails. *)
Lemma val_zero x : fin x = true -> val x = 0 -> exists s, x = B754_zero s.
Proof.
  intros F V. destruct x as [s|s| |s m e B]; [eauto|discriminate F..|]. exfalso. unfold val in V. cbn in V. apply eq_0_F2R in V. destruct s; discriminate V.
Qed.
Lemma zero_over_zero s t : fdiv (B754_zero s) (B754_zero t) = B754_nan. Proof. reflexivity. Qed.
Lemma fabs_zero s : fabs (B754_zero s) = B754_zero false. Proof. reflexivity. Qed.
Lemma zadd s t : exists r, fadd (B754_zero s) (B754_zero t) = B754_zero r. Proof. exists (s && t)%bool. destruct s, t; reflexivity. Qed.
Lemma zsub s t : exists r, fsub (B754_zero s) (B754_zero t) = B754_zero r. Proof. exists (s && negb t)%bool. destruct s, t; reflexivity. Qed.
Lemma zmul x s : fin x = true -> exists r, fmul x (B754_zero s) = B754_zero r. Proof. destruct x as [t|t| |t m e B]; intros F; try discriminate F; exists (xorb t s); reflexivity. Qed.
Lemma zdiv x s : fin x = true -> val x <> 0 -> exists r, fdiv (B754_zero s) x = B754_zero r.
Proof. destruct x as [t|t| |t m e B]; intros F V; try discriminate F; [exfalso; apply V; reflexivity|exists (xorb s t); reflexivity]. Qed.
Lemma feq_zero s : feq (B754_zero s) f0 = true. Proof. reflexivity. Qed.
Theorem C106_bad_spacing : forall delta n, (2 <= n <= 2 ^ 53)%Z -> fin delta = false \/ val delta = 0 -> axis_f delta n = Err AssertionError.
Proof.
  intros delta n Hn H.
  assert (NF : fin delta = false -> forall x, fle (fdiv (fabs (fsub x delta)) delta) tol8 = false).
  { intros F x. destruct delta as [s|s| |s m e B]; try discriminate F; [|destruct (fabs _); reflexivity].
    destruct x as [t|t| |t m e B]; destruct s; try destruct t; reflexivity. }
  assert (L : exists l, linspace_f delta (fmul (fofZ n) delta) n = Ok l /\ (2 <= List.length l)%nat /\ (val delta = 0 -> fin delta = true -> forall k, (k < 2)%nat -> exists s, nth k l f0 = B754_zero s)).
  { unfold linspace_f. destruct (Z.ltb_spec n 0); [lia|]. destruct (Z.eqb_spec n 0); [lia|]. destruct (Z.eqb_spec n 1); [lia|]. cbv zeta. eexists. split; [reflexivity|].
    split; [rewrite app_length, map_length, seq_length; cbn; lia|]. intros V F k Hk. destruct (val_zero delta F V) as (s & ->).
    destruct (fofZ_ok n ltac:(lia)) as [FN VN]. destruct (fofZ_ok (n - 1) ltac:(lia)) as [FM VM].
    destruct (zmul (fofZ n) s FN) as (r & ->). destruct (zsub r s) as (q & ->). destruct (zdiv (fofZ (n - 1)) q FM) as (p & ->); [rewrite VM; apply (IZR_neq _ 0); lia|].
    rewrite feq_zero.
    assert (En : forall k, (k < Z.to_nat (n - 1))%nat -> exists t, fadd (fmul (fdiv (fofZ (Z.of_nat k)) (fofZ (n - 1))) (B754_zero q)) (B754_zero s) = B754_zero t).
    { intros j Hj. destruct (fofZ_ok (Z.of_nat j) ltac:(lia)) as [Fj Vj].
      assert (B01 : 0 <= IZR (Z.of_nat j) / IZR (n - 1) <= 1).
      { assert (0 < IZR (n - 1)) by (apply (IZR_lt 0); lia). assert (0 <= IZR (Z.of_nat j) <= IZR (n - 1)) by (split; apply IZR_le; lia). split; [apply Rmult_le_pos; [lra|apply Rlt_le, Rinv_0_lt_compat; lra]|].
        apply Rmult_le_reg_r with (IZR (n - 1)); [lra|]. unfold Rdiv. rewrite Rmult_assoc, Rinv_l by lra. lra. }
      destruct (fdiv_fin (fofZ (Z.of_nat j)) (fofZ (n - 1)) Fj) as [Fd _]; [rewrite VM; apply (IZR_neq _ 0); lia| |].
      - rewrite Vj, VM. destruct (rnd_between _ 0 1 dbl_0 (int_dbl 1 ltac:(lia)) B01). rewrite Rabs_pos_eq by lra. apply Rle_lt_trans with 1; [lra|]. change 1 with (bpow radix2 0). apply bpow_lt. lia.
      - destruct (zmul _ q Fd) as (t & ->). apply zadd. }
    destruct (Nat.lt_ge_cases k (Z.to_nat (n - 1))) as [Lt|Ge].
    - rewrite app_nth1 by (rewrite map_length, seq_length; lia). set (g := fun k0 : nat => _). rewrite (nth_indep _ f0 (g 0%nat)) by (rewrite map_length, seq_length; lia). rewrite (map_nth g), seq_nth by lia. apply En. exact Lt.
    - rewrite app_nth2 by (rewrite map_length, seq_length; lia). rewrite map_length, seq_length. replace (k - Z.to_nat (n - 1))%nat with 0%nat by lia. cbn. eauto. }
  destruct L as (l & El & Ll & Lz). unfold axis_f. rewrite El. cbn [bind]. rewrite !get_f_nth by lia. cbn [bind].
  destruct (fin delta) eqn:F; [|rewrite (NF eq_refl); reflexivity]. destruct H as [|V]; [discriminate|].
  destruct (Lz V eq_refl 1%nat ltac:(lia)) as (s1 & ->), (Lz V eq_refl 0%nat ltac:(lia)) as (s0 & ->). destruct (val_zero delta F V) as (s & ->).
  destruct (zsub s1 s0) as (r & ->). destruct (zsub r s) as (q & ->). rewrite fabs_zero, zero_over_zero. reflexivity.
Qed.

(** ** Spacings without rounding errors: a whole number of steps of 2^e *)
Lemma exact_grid d m e al a b n : d = IZR m * bpow radix2 e -> (1 <= m)%Z -> (-1074 <= e)%Z -> (2 <= n)%Z -> (m * n <= 2 ^ 53)%Z -> IZR n * d < top64 -> (0 <= al <= 1)%Z ->
  fin a = true -> val a = IZR al * d -> fin b = true -> val b = IZR (n - 1 + al) * d ->
  exists l, linspace_f a b n = Ok l /\ List.length l = Z.to_nat n /\ forall k, (k < Z.to_nat n)%nat -> fin (nth k l f0) = true /\ val (nth k l f0) = (INR k + IZR al) * d.
Proof.
  intros Ed Hm He Hn Hmn Ht Hal Fa Va Fb Vb. assert (D : 0 < d) by (rewrite Ed; apply Rmult_lt_0_compat; [apply (IZR_lt 0); lia|apply bpow_gt_0]).
  assert (G : forall k, (0 <= k <= n)%Z -> dbl (IZR k * d) /\ Rabs (IZR k * d) < top64).
  { intros k Hk. split.
    - apply (grid_dbl e); [exact He|]. exists (k * m)%Z. split; [nia|]. rewrite Ed, mult_IZR. ring.
    - rewrite Rabs_pos_eq by (apply Rmult_le_pos; [apply (IZR_le 0); lia|lra]). eapply Rle_lt_trans; [|exact Ht]. apply Rmult_le_compat_r; [lra|]. apply IZR_le. lia. }
  assert (R : forall k, (0 <= k <= n)%Z -> rnd (IZR k * d) = IZR k * d) by (intros k Hk; apply rnd_id, G, Hk).
  destruct (fofZ_ok (n - 1) ltac:(nia)) as [FM VM].
  assert (E1 : val b - val a = IZR (n - 1) * d) by (rewrite Va, Vb, plus_IZR; ring).
  destruct (fsub_fin b a Fb Fa) as [F1 V1]; [rewrite E1, R by lia; apply G; lia|]. rewrite E1, R in V1 by lia.
  assert (NZ : IZR (n - 1) <> 0) by (apply (IZR_neq _ 0); lia).
  assert (E2 : val (fsub b a) / val (fofZ (n - 1)) = IZR 1 * d) by (rewrite V1, VM; field; exact NZ).
  destruct (fdiv_fin (fsub b a) (fofZ (n - 1)) F1) as [F2 V2]; [rewrite VM; exact NZ|rewrite E2, R by lia; apply G; lia|]. rewrite E2, R, Rmult_1_l in V2 by lia.
  destruct (linspace_entries a b n Hn F2 ltac:(rewrite V2; lra)) as (l & El & Ll & Lb & Lk). exists l. split; [exact El|]. split; [exact Ll|].
  intros k Hk. rewrite INR_IZR_INZ. destruct (Nat.eq_dec k (Z.to_nat (n - 1))) as [->|Hne].
  - rewrite Lb. split; [exact Fb|]. rewrite Vb, Z2Nat.id, plus_IZR by lia. reflexivity.
  - rewrite Lk by lia. destruct (fofZ_ok (Z.of_nat k) ltac:(nia)) as [Fk Vk].
    destruct (fmul_fin (fofZ (Z.of_nat k)) _ Fk F2) as [F3 V3]; [rewrite Vk, V2, R by lia; apply G; lia|]. rewrite Vk, V2, R in V3 by lia.
    assert (E4 : IZR (Z.of_nat k) * d + val a = IZR (Z.of_nat k + al) * d) by (rewrite Va, plus_IZR; ring).
    destruct (fadd_fin _ a F3 Fa) as [F4 V4]; [rewrite V3, E4, R by lia; apply G; lia|]. split; [exact F4|]. rewrite V4, V3, E4, R, plus_IZR by lia. reflexivity.
Qed.
(** With a spacing of m * 2^e (for example 1/64 s) and m * n at most 2^53, every time is
    exactly its multiple of the spacing. *)
Theorem C106_exact : forall dt n m e, fin dt = true -> val dt = IZR m * bpow radix2 e -> (1 <= m)%Z -> (-1074 <= e)%Z -> (2 <= n)%Z -> (m * n <= 2 ^ 53)%Z -> IZR n * val dt < top64 ->
  (exists l, time_f dt n = Ok l /\ List.length l = Z.to_nat n /\ forall k, (k < Z.to_nat n)%nat -> fin (nth k l f0) = true /\ val (nth k l f0) = INR k * val dt) /\
  (exists l, axis_f dt n = Ok l /\ List.length l = Z.to_nat n /\ forall k, (k < Z.to_nat n)%nat -> fin (nth k l f0) = true /\ val (nth k l f0) = INR (S k) * val dt).
Proof.
  intros dt n m e F Ed Hm He Hn Hmn Ht. assert (D : 0 < val dt) by (rewrite Ed; apply Rmult_lt_0_compat; [apply (IZR_lt 0); lia|apply bpow_gt_0]).
  assert (G : forall k, (0 <= k <= n)%Z -> rnd (IZR k * val dt) = IZR k * val dt /\ Rabs (IZR k * val dt) < top64).
  { intros k Hk. split.
    - apply rnd_id, (grid_dbl e); [exact He|]. exists (k * m)%Z. split; [nia|]. rewrite Ed, mult_IZR. ring.
    - rewrite Rabs_pos_eq by (apply Rmult_le_pos; [apply (IZR_le 0); lia|lra]). eapply Rle_lt_trans; [|exact Ht]. apply Rmult_le_compat_r; [lra|]. apply IZR_le. lia. }
  split.
  - destruct (fofZ_ok (n - 1) ltac:(nia)) as [FM VM]. destruct (G (n - 1)%Z ltac:(lia)) as [G1 G2].
    destruct (fmul_fin dt (fofZ (n - 1)) F FM) as [Fb Vb]; [rewrite VM, (Rmult_comm (val dt)), G1; exact G2|]. rewrite VM, (Rmult_comm (val dt)), G1 in Vb.
    destruct (exact_grid (val dt) m e 0 f0 _ n Ed Hm He Hn Hmn Ht ltac:(lia) eq_refl ltac:(rewrite f0_val; ring) Fb) as (l & El & Ll & Lk); [rewrite Z.add_0_r; exact Vb|].
    exists l. split; [exact El|]. split; [exact Ll|]. intros k Hk. destruct (Lk k Hk) as [Fk Vk]. split; [exact Fk|]. rewrite Vk, Rplus_0_r. reflexivity.
  - destruct (fofZ_ok n ltac:(nia)) as [FM VM]. destruct (G n ltac:(lia)) as [G1 G2].
    destruct (fmul_fin (fofZ n) dt FM F) as [Fb Vb]; [rewrite VM, G1; exact G2|]. rewrite VM, G1 in Vb.
    destruct (exact_grid (val dt) m e 1 dt _ n Ed Hm He Hn Hmn Ht ltac:(lia) F ltac:(ring) Fb) as (l & El & Ll & Lk); [replace (n - 1 + 1)%Z with n by lia; exact Vb|].
    exists l. split; [|split; [exact Ll|]; intros k Hk; destruct (Lk k Hk) as [Fk Vk]; split; [exact Fk|]; rewrite Vk, S_INR; reflexivity].
    unfold axis_f. rewrite El. cbn [bind]. rewrite !get_f_nth by lia. cbn [bind].
    destruct (Lk 1%nat ltac:(lia)) as [F1 V1], (Lk 0%nat ltac:(lia)) as [F0 V0]. cbn [INR] in V1, V0.
    assert (E1 : val (nth 1 l f0) - val (nth 0 l f0) = IZR 1 * val dt) by (rewrite V1, V0; ring). destruct (G 1%Z ltac:(lia)) as [G3 G4].
    destruct (fsub_fin _ _ F1 F0) as [F2 V2]; [rewrite E1, G3; exact G4|]. rewrite E1, G3, Rmult_1_l in V2.
    assert (E2 : rnd (val (fsub (nth 1 l f0) (nth 0 l f0)) - val dt) = 0) by (rewrite V2, Rminus_diag_eq by reflexivity; apply rnd_0).
    destruct (fsub_fin _ dt F2 F) as [F3 V3]; [rewrite E2, Rabs_R0; apply bpow_gt_0|]. rewrite E2 in V3. destruct (val_zero _ F3 V3) as (s & ->). rewrite fabs_zero.
    destruct (zdiv dt false F ltac:(lra)) as (r & ->). destruct tol8_ok as [Ft Vt]. assert (Q : fle (B754_zero r) tol8 = true).
    { apply fle_val; [reflexivity|exact Ft|]. change (val (B754_zero r)) with 0. eapply Rle_trans; [apply bpow_ge_0|exact Vt]. }
    rewrite Q. reflexivity.
Qed.

(** ** The common time axis of two records *)
Lemma pymin_ok x y : fin x = true -> fin y = true -> fin (pymin x y) = true /\ val (pymin x y) = Rmin (val x) (val y).
Proof.
  intros Fx Fy. unfold pymin. destruct (flt y x) eqn:E.
  - apply flt_val in E; auto. split; [exact Fy|]. rewrite Rmin_right; lra.
  - split; [exact Fx|]. rewrite Rmin_left; [reflexivity|]. apply Rnot_lt_le. intros L. apply flt_val in L; auto. congruence.
Qed.
Lemma pymax_ok x y : fin x = true -> fin y = true -> fin (pymax x y) = true /\ val (pymax x y) = Rmax (val x) (val y).
Proof.
  intros Fx Fy. unfold pymax. destruct (flt x y) eqn:E.
  - apply flt_val in E; auto. split; [exact Fy|]. rewrite Rmax_right; lra.
  - split; [exact Fx|]. rewrite Rmax_left; [reflexivity|]. apply Rnot_lt_le. intros L. apply flt_val in L; auto. congruence.
Qed.
(** The smaller of the two first steps, and the later of the two ends. *)
Definition step_f (t : list f64) : f64 := fsub (nth 1 t f0) (nth 0 t f0).

(** For any two records with finite times: the axis starts one (smaller) step after 0, has
    even spacing, and just enough entries to reach the later end up to rounding. *)
Theorem C106_common_axis : forall t1 t2, (2 <= List.length t1)%nat -> (2 <= List.length t2)%nat ->
  fin (step_f t1) = true -> fin (step_f t2) = true -> fin (last t1 f0) = true -> fin (last t2 f0) = true ->
  let d := Rmin (val (step_f t1)) (val (step_f t2)) in let T := Rmax (val (last t1 f0)) (val (last t2 f0)) in
  bpow radix2 (-999) <= d -> T <= bpow radix2 998 -> d / 2 <= T -> T <= IZR (2 ^ 47) * d ->
  exists n l, align_f t1 t2 = Ok l /\ even_axis d 1 n l /\ val (nth 0 l f0) = d /\ (1 <= n)%Z /\
    (IZR n - 1) * d < T /\ T * (1 - ueps) <= IZR n * d.
Proof.
  intros t1 t2 L1 L2 Fs1 Fs2 Fe1 Fe2 d T Hd HT HT1 HT2.
  assert (D : 0 < d) by (eapply Rlt_le_trans; [apply bpow_gt_0|exact Hd]).
  destruct (pymin_ok _ _ Fs1 Fs2) as [Fd Vd]. destruct (pymax_ok _ _ Fe1 Fe2) as [FT VT]. fold d in Vd. fold T in VT.
  assert (Q : / 2 <= val (pymax (last t1 f0) (last t2 f0)) / val (pymin (step_f t1) (step_f t2)) <= IZR (2 ^ 53)).
  { rewrite Vd, VT. split; apply Rmult_le_reg_r with d; try exact D; unfold Rdiv; rewrite Rmult_assoc, Rinv_l by lra; [lra|]. rewrite Rmult_1_r. eapply Rle_trans; [exact HT2|]. apply Rmult_le_compat_r; [lra|]. apply IZR_le. lia. }
  destruct (C104_layer_count (pymax (last t1 f0) (last t2 f0)) (pymin (step_f t1) (step_f t2)) FT Fd) as (n & En & N1 & N2 & N0); [rewrite Vd; exact D|rewrite VT; lra|exact Q|].
  rewrite Vd, VT in N1, N2.
  assert (NB : (n <= 2 ^ 48)%Z).
  { apply Z.lt_succ_r, lt_IZR. rewrite succ_IZR. apply Rle_lt_trans with (IZR (2 ^ 47) + 1); [|rewrite <- plus_IZR, <- plus_IZR; apply IZR_lt; lia]. apply Rmult_le_reg_r with d; [exact D|]. lra. }
  assert (E : align_f t1 t2 = linspace_f (pymin (step_f t1) (step_f t2)) (fmul (pymin (step_f t1) (step_f t2)) (fofZ n)) n).
  { unfold align_f. destruct (Nat.ltb_spec (List.length t1) 2); [lia|]. destruct (Nat.ltb_spec (List.length t2) 2); [lia|]. cbn [orb]. fold (step_f t1) (step_f t2). cbv zeta.
    unfold layer_count in En. rewrite En. reflexivity. }
  destruct (fofZ_ok n ltac:(lia)) as [FN VN]. assert (NN : 1 <= IZR n) by (apply (IZR_le 1); lia).
  assert (Bn : IZR n * d <= bpow radix2 999).
  { replace 999%Z with (998 + 1)%Z by reflexivity. rewrite bpow_plus. change (bpow radix2 1) with 2. pose proof (bpow_le radix2 (-999) 997 ltac:(lia)).
    destruct (Req_dec (IZR n) 1) as [E1|E1].
    - rewrite E1, Rmult_1_l. apply Rle_trans with (2 * T); lra.
    - assert (2 <= IZR n). { apply (IZR_le 2). assert (n <> 1)%Z by (intros ->; apply E1; reflexivity). lia. } assert (IZR n <= 2 * (IZR n - 1)) by lra. assert (IZR n * d <= 2 * ((IZR n - 1) * d)) by nra. lra. }
  destruct (product_rel (pymin (step_f t1) (step_f t2)) (fofZ n) (IZR n) d Fd FN) as [Fb Rb]; [rewrite VN, Vd; ring|exact NN|exact Hd|exact Bn|].
  exists n. destruct (Z.eq_dec n 1) as [->|Hn1].
  - rewrite E. unfold linspace_f. cbn [Z.ltb Z.eqb Z.compare Pos.compare Pos.compare_cont Pos.eqb]. eexists. split; [reflexivity|].
    assert (Fz : fin (fsub (fmul (pymin (step_f t1) (step_f t2)) (fofZ 1)) (pymin (step_f t1) (step_f t2))) = true).
    { assert (Vm : val (fmul (pymin (step_f t1) (step_f t2)) (fofZ 1)) = d) by (rewrite (fmul_val _ _ Fb), VN, Vd, Rmult_1_r, <- Vd; apply rnd_id, val_dbl).
      apply fsub_fin; [exact Fb|exact Fd|]. rewrite Vm, Vd, Rminus_diag_eq, rnd_0, Rabs_R0 by reflexivity. apply bpow_gt_0. }
    destruct (fmul_zero _ Fz) as [F1 V1]. assert (E1 : rnd (val (fmul (fofZ 0) (fsub (fmul (pymin (step_f t1) (step_f t2)) (fofZ 1)) (pymin (step_f t1) (step_f t2)))) + val (pymin (step_f t1) (step_f t2))) = d) by (rewrite V1, Rplus_0_l, <- Vd; apply rnd_id, val_dbl).
    destruct (fadd_fin _ _ F1 Fd) as [F2 V2]; [rewrite E1, <- Vd; apply val_lt_top|]. rewrite E1 in V2.
    split; [|split; [exact V2|]; split; [lia|]; split; [exact N1|exact N2]].
    split; [reflexivity|]. cbn [List.length]. split; [|intros; lia]. intros [|k] Hk; [|lia]. cbn [nth INR]. split; [exact F2|]. rewrite V2. pose proof ueps_pos. rewrite Rplus_0_l, Rmult_1_l, Rminus_diag_eq, Rabs_R0 by reflexivity. nra.
  - destruct (grid d 1 (pymin (step_f t1) (step_f t2)) _ n Hd ltac:(lia) Bn Fd ltac:(rewrite Vd; ring) ltac:(lra) Fb) as (l & El & Ll & Lk & L0 & _ & Ls).
    { replace (IZR (n - 1) + 1) with (IZR n) by (rewrite minus_IZR; ring). exact Rb. }
    exists l. rewrite E. split; [exact El|]. rewrite L0, Vd. split; [unfold even_axis; rewrite !Ll; split; [reflexivity|]; split; [exact Lk|exact Ls]|]. split; [reflexivity|]. split; [exact N0|]. split; [exact N1|exact N2].
Qed.

Lemma rnd_max x y : rnd (Rmax x y) = Rmax (rnd x) (rnd y).
Proof. unfold Rmax at 1. destruct (Rle_dec x y) as [L|L]; [rewrite Rmax_right; [reflexivity|apply rnd_mono, L]|rewrite Rmax_left; [reflexivity|apply rnd_mono; lra]]. Qed.

(** Two records of the same spacing, of n1 and n2 samples: the common axis has as many samples
    as the longer one, or one more. *)
Theorem C106_same_spacing : forall dt n1 n2 t1 t2, ordinary dt n1 -> ordinary dt n2 -> bpow radix2 (-998) <= val dt -> (Z.max n1 n2 <= 2 ^ 46)%Z -> IZR (Z.max n1 n2) * val dt <= bpow radix2 997 ->
  axis_f dt n1 = Ok t1 -> axis_f dt n2 = Ok t2 ->
  exists l, align_f t1 t2 = Ok l /\ (List.length l = Z.to_nat (Z.max n1 n2) \/ List.length l = S (Z.to_nat (Z.max n1 n2))).
Proof.
  intros dt n1 n2 t1 t2 O1 O2 H998 Hn Hb A1 A2. pose proof (ord_pos _ _ O1) as D.
  destruct (C106_axis_accepted dt n1 O1) as (t1' & A1' & E1 & _ & La1). rewrite A1 in A1'. injection A1' as <-.
  destruct (C106_axis_accepted dt n2 O2) as (t2' & A2' & E2 & _ & La2). rewrite A2 in A2'. injection A2' as <-.
  destruct O1 as (F & Hd & Hn1 & B1), O2 as (_ & _ & Hn2 & B2).
  destruct (first_step _ _ _ Hn1 Hd B1 E1) as [F1 R1]. destruct (first_step _ _ _ Hn2 Hd B2 E2) as [F2 R2]. fold (step_f t1) in F1, R1. fold (step_f t2) in F2, R2.
  destruct (fofZ_ok n1 ltac:(lia)) as [FN1 VN1]. destruct (fofZ_ok n2 ltac:(lia)) as [FN2 VN2].
  destruct (product_rel (fofZ n1) dt (IZR n1) (val dt) FN1 F) as [G1 S1]; [rewrite VN1; ring|apply (IZR_le 1); lia|exact Hd|exact B1|].
  destruct (product_rel (fofZ n2) dt (IZR n2) (val dt) FN2 F) as [G2 S2]; [rewrite VN2; ring|apply (IZR_le 1); lia|exact Hd|exact B2|].
  set (n := Z.max n1 n2) in *. set (d := Rmin (val (step_f t1)) (val (step_f t2))). set (T := Rmax (val (last t1 f0)) (val (last t2 f0))).
  assert (Rd : rel 23 d (val dt)) by (unfold d, Rmin; destruct (Rle_dec _ _); assumption).
  assert (RT : rel (1001 / 1000) T (IZR n * val dt)).
  { assert (C : n = n1 /\ (n2 <= n1)%Z \/ n = n2 /\ (n1 <= n2)%Z) by lia. unfold T. rewrite La1, La2.
    assert (Mo : forall p q, (p <= q)%Z -> fin (fmul (fofZ p) dt) = true -> fin (fmul (fofZ q) dt) = true -> val (fofZ p) = IZR p -> val (fofZ q) = IZR q -> val (fmul (fofZ p) dt) <= val (fmul (fofZ q) dt)).
    { intros p q Hpq Hp Hq Vp Vq. rewrite (fmul_val _ _ Hp), (fmul_val _ _ Hq), Vp, Vq. apply rnd_mono. apply Rmult_le_compat_r; [lra|]. apply IZR_le, Hpq. }
    destruct C as [[-> C]|[-> C]]; [rewrite Rmax_left by (apply Mo; assumption)|rewrite Rmax_right by (apply Mo; assumption)]; assumption. }
  assert (N2 : 2 <= IZR n) by (apply (IZR_le 2); lia). assert (NB : IZR n <= IZR (2 ^ 46)) by (apply IZR_le; exact Hn).
  destruct (rel_bounds 23 d (val dt) ltac:(lra) ltac:(lra) Rd) as [d1 d2]. destruct (rel_bounds (1001 / 1000) T (IZR n * val dt) ltac:(lra) ltac:(nra) RT) as [T1 T2].
  assert (X1 : IZR n * ueps <= / 128).
  { apply Rle_trans with (IZR (2 ^ 46) * ueps); [apply Rmult_le_compat_r; [apply Rlt_le, ueps_pos|exact NB]|]. unfold ueps. change (IZR (2 ^ 46)) with (IZR 70368744177664). replace (2 ^ 53) with (IZR 70368744177664 * 128) by (simpl; lra). apply Req_le. field. }
  pose proof ueps_pos as U.
  assert (Hdd : bpow radix2 (-999) <= d) by (replace (-999)%Z with (-998 + -1)%Z by reflexivity; rewrite bpow_plus; change (bpow radix2 (-1)) with (/ 2); lra).
  destruct E1 as (L1 & K1 & _), E2 as (L2 & K2 & _).
  destruct (C106_common_axis t1 t2 ltac:(lia) ltac:(lia) F1 F2) as (N & l & El & (Ll & _) & _ & _ & Q1 & Q2).
  - rewrite La1. exact G1.
  - rewrite La2. exact G2.
  - fold d. exact Hdd.
  - fold T. replace 998%Z with (997 + 1)%Z by reflexivity. rewrite bpow_plus. change (bpow radix2 1) with 2. lra.
  - fold d T. nra.
  - fold d T. assert (IZR n * val dt <= IZR (2 ^ 46) * val dt) by (apply Rmult_le_compat_r; lra). change (IZR (2 ^ 47)) with (IZR (2 * 2 ^ 46)). rewrite mult_IZR. assert (0 < IZR (2 ^ 46)) by (apply (IZR_lt 0); lia). nra.
  - exists l. split; [exact El|]. fold d T in Q1, Q2. unfold rel in Rd, RT. apply Rabs_le_inv in Rd, RT. rewrite Ll.
    assert (Y1 : IZR n * (ueps * val dt) <= / 128 * val dt) by (rewrite <- Rmult_assoc; apply Rmult_le_compat_r; lra).
    assert (Y2 : ueps * val dt <= / 1000 * val dt) by (pose proof u_tiny; apply Rmult_le_compat_r; lra).
    assert (Z1 : T - IZR n * d <= / 4 * d).
    { assert (IZR n * (val dt - d) <= IZR n * (23 * ueps * val dt)) by (apply Rmult_le_compat_l; lra). lra. }
    assert (Z2 : IZR n * d - T <= 2 / 10 * d).
    { assert (IZR n * (d - val dt) <= IZR n * (23 * ueps * val dt)) by (apply Rmult_le_compat_l; lra). lra. }
    assert (Z3 : T * ueps <= / 100 * d) by (apply Rle_trans with (IZR n * val dt * (1001 / 1000) * ueps); [apply Rmult_le_compat_r; lra|]; lra).
    assert (N_hi : (N <= n + 1)%Z).
    { apply Z.lt_succ_r, lt_IZR. rewrite succ_IZR, plus_IZR. apply Rmult_lt_reg_r with d; [lra|]. lra. }
    assert (N_lo : (n <= N)%Z).
    { apply Z.lt_succ_r, lt_IZR. rewrite succ_IZR. apply Rmult_lt_reg_r with d; [lra|]. lra. }
    lia.
Qed.

(** One more does happen: three samples at 0.01 s, compared with themselves, give four. *)
Definition d001 : f64 := lit 5764607523034235 (-59).
Definition got (r : res (list f64)) : list f64 := match r with Ok l => l | Err _ => [] end.
Theorem C106_same_count_refuted : exists t l, ordinary d001 3 /\ axis_f d001 3 = Ok t /\ align_f t t = Ok l /\ List.length t = 3%nat /\ List.length l = 4%nat.
Proof.
  exists (got (axis_f d001 3)), (got (align_f (got (axis_f d001 3)) (got (axis_f d001 3)))). split; [|repeat split; vm_compute; reflexivity].
  destruct (lit_ok 5764607523034235 (-59) ltac:(lia) ltac:(lia)) as [F V]. fold d001 in F, V. split; [exact F|].
  assert (B : bpow radix2 (-7) <= val d001 <= bpow radix2 (-6)).
  { rewrite V. replace (-7)%Z with (52 + -59)%Z by reflexivity. replace (-6)%Z with (53 + -59)%Z by reflexivity. rewrite !bpow_plus. pose proof (bpow_gt_0 radix2 (-59)).
    split; (apply Rmult_le_compat_r; [lra|]); [change (bpow radix2 52) with (IZR (2 ^ 52))|change (bpow radix2 53) with (IZR (2 ^ 53))]; apply IZR_le; lia. }
  split; [eapply Rle_trans; [|apply B]; apply bpow_le; lia|]. split; [lia|].
  apply Rle_trans with (bpow radix2 2 * bpow radix2 (-6)); [apply Rmult_le_compat; [lra|pose proof (bpow_gt_0 radix2 (-7)); lra|change (bpow radix2 2) with 4; lra|apply B]|]. rewrite <- bpow_plus. apply bpow_le. lia.
Qed.
(** The second time of thirty samples at 0.01 s is not 0.01 s. *)
Theorem C106_first_step_refuted : exists l, time_f d001 30 = Ok l /\ flt (nth 1 l f0) d001 = true.
Proof.
  exists (got (time_f d001 30)). split; [|vm_compute; reflexivity]. assert (G : (match time_f d001 30 with Ok _ => true | Err _ => false end) = true) by (vm_compute; reflexivity).
  destruct (time_f d001 30); [reflexivity|discriminate G].
Qed.
(** A negative spacing is accepted, and gives negative, decreasing times. *)
Theorem C106_negative_accepted : exists l, axis_f (fsub f0 d001) 3 = Ok l /\ flt (nth 0 l f0) f0 = true /\ flt (nth 1 l f0) (nth 0 l f0) = true /\ flt (nth 2 l f0) (nth 1 l f0) = true.
Proof. exists (got (axis_f (fsub f0 d001) 3)). repeat split; vm_compute; reflexivity. Qed.

(** ** The check for even spacing *)
Lemma tol7_ok : fin tol7 = true /\ bpow radix2 (-24) < val tol7.
Proof.
  destruct (lit_ok 7555786372591432 (-76) ltac:(lia) ltac:(lia)) as [F V]. split; [exact F|]. unfold tol7. rewrite V.
  replace (-24)%Z with (52 + -76)%Z by reflexivity. rewrite bpow_plus. apply Rmult_lt_compat_r; [apply bpow_gt_0|]. apply IZR_lt. reflexivity.
Qed.
Lemma diffs_nth : forall d : list f64, List.length (diffs_f d) = (List.length d - 1)%nat /\ forall i, (i < List.length d - 1)%nat -> nth i (diffs_f d) f0 = fsub (nth (S i) d f0) (nth i d f0).
Proof.
  induction d as [|x d [IL IH]]; [split; [reflexivity|cbn; intros; lia]|]. destruct d as [|y d]; [split; [reflexivity|cbn; intros; lia]|].
  change (diffs_f (x :: y :: d)) with (fsub y x :: diffs_f (y :: d)). split; [cbn [List.length] in *; lia|]. intros [|i] Hi; [reflexivity|].
  cbn [nth]. rewrite IH by (cbn [List.length] in *; lia). reflexivity.
Qed.
(** Evenly spaced times of up to 2^20 s (twelve days) pass the check of the response spectra,
    whatever the subsampling. *)
Theorem C106_even_check : forall d al n l k, 0 < d -> 0 <= al <= 1 -> even_axis d al n l -> INR (List.length l) * d <= bpow radix2 20 ->
  (0 < k)%nat -> (k < List.length l)%nat -> even_f k l = Ok true.
Proof.
  intros d al n l k D Hal (Ll & Lk & _) B Hk Hl. pose proof ueps_pos as U. pose proof u_tiny as U'.
  assert (UB : ueps * bpow radix2 20 = bpow radix2 (-33)).
  { unfold ueps. rewrite !bpow_powerRZ. change (powerRZ (IZR radix2) 20) with (2 ^ 20). change (powerRZ (IZR radix2) (-33)) with (/ 2 ^ 33). replace (2 ^ 53) with (2 ^ 20 * 2 ^ 33) by (simpl; lra). field. }
  set (H := bpow radix2 20) in *. set (E := bpow radix2 (-33)) in *. assert (EP : 0 < E) by apply bpow_gt_0.
  assert (HB : H < top64) by (apply bpow_lt; lia).
  (* one time *)
  assert (T : forall i, (i < List.length l)%nat -> fin (nth i l f0) = true /\ Rabs (val (nth i l f0) - (INR i + al) * d) <= 7 * E /\ 0 <= (INR i + al) * d <= H).
  { intros i Hi. destruct (Lk i Hi) as [F R]. split; [exact F|]. assert (I : INR i + al <= INR (List.length l)) by (apply le_INR in Hi; rewrite S_INR in Hi; lra). pose proof (pos_INR i).
    assert (P : 0 <= (INR i + al) * d <= H) by (split; [apply Rmult_le_pos; lra|eapply Rle_trans; [|exact B]; apply Rmult_le_compat_r; lra]).
    split; [|exact P]. eapply Rle_trans; [exact R|]. rewrite <- UB. rewrite Rmult_assoc. apply Rmult_le_compat_l; [lra|]. apply Rmult_le_compat_l; lra. }
  assert (Small : 100 * E < 1 /\ 1 <= H). { split; [|change 1 with (bpow radix2 0); apply bpow_le; lia]. apply Rlt_le_trans with (bpow radix2 7 * E); [change (bpow radix2 7) with 128; lra|]. unfold E. rewrite <- bpow_plus. change 1 with (bpow radix2 0). apply bpow_le. lia. }
  (* one step *)
  assert (S : forall x y a b, fin x = true -> fin y = true -> Rabs (val x - a) <= 7 * E -> Rabs (val y - b) <= 7 * E -> 0 <= b <= a -> a <= H ->
    fin (fsub x y) = true /\ Rabs (val (fsub x y) - (a - b)) <= 17 * E).
  { intros x y a b Fx Fy Ra Rb Hb Ha. apply Rabs_le_inv in Ra, Rb. destruct (rnd_plus' (val x) (- val y) (val_dbl x)) as (e & He & Ee); [apply generic_format_opp, val_dbl|].
    change (val x + - val y) with (val x - val y) in Ee. assert (Q : Rabs (e * (val x - val y)) <= 3 * E).
    { rewrite Rabs_mult. apply Rle_trans with (ueps * (2 * H)); [|lra]. apply Rmult_le_compat; [apply Rabs_pos|apply Rabs_pos|exact He|]. apply Rabs_le. lra. }
    apply Rabs_le_inv in Q. assert (Rr : Rabs (rnd (val x - val y) - (a - b)) <= 17 * E) by (rewrite Ee; apply Rabs_le; lra).
    destruct (fsub_fin x y Fx Fy) as [F V]; [|split; [exact F|rewrite V; exact Rr]]. apply Rabs_le_inv in Rr.
    apply Rle_lt_trans with (2 * H); [apply Rabs_le; lra|]. unfold H. change 2 with (bpow radix2 1). rewrite <- bpow_plus. apply bpow_lt. lia. }
  unfold even_f. destruct (diffs_nth (every k l)) as [DL DN].
  assert (E1 : (1 < List.length (every k l))%nat) by (apply every_lt; [exact Hk|lia]).
  assert (X : forall i, (i < List.length (every k l) - 1)%nat -> fin (nth i (diffs_f (every k l)) f0) = true /\ Rabs (val (nth i (diffs_f (every k l)) f0) - INR k * d) <= 17 * E).
  { intros i Hi. rewrite DN by exact Hi. rewrite !every_nth by exact Hk. assert (I1 : (Datatypes.S i * k < List.length l)%nat) by (apply every_lt; [exact Hk|lia]). assert (I0 : (i * k < List.length l)%nat) by (cbn in I1; lia).
    destruct (T _ I1) as (Fa & Ra & Ba), (T _ I0) as (Fb & Rb & Bb).
    assert (Dk : (INR (Datatypes.S i * k) + al) * d - (INR (i * k) + al) * d = INR k * d) by (rewrite !mult_INR, S_INR; ring).
    rewrite <- Dk. apply S; try assumption; [|apply Ba]. split; [apply Bb|]. pose proof (pos_INR k). nra. }
  rewrite get_f_nth by (rewrite DL; lia). cbn [bind]. f_equal. apply forallb_forall. intros x Hx. apply (In_nth _ _ f0) in Hx as (i & Hi & <-). rewrite DL in Hi.
  destruct (X i Hi) as [Fi Ri], (X 0%nat ltac:(lia)) as [F0 R0]. set (x := nth i _ f0) in *. set (y := nth 0 _ f0) in *. apply Rabs_le_inv in Ri, R0.
  destruct (rnd_plus' (val x) (- val y) (val_dbl x)) as (e & He & Ee); [apply generic_format_opp, val_dbl|]. change (val x + - val y) with (val x - val y) in Ee.
  assert (Q : Rabs (rnd (val x - val y)) <= 40 * E).
  { rewrite Ee, Rabs_mult. apply Rle_trans with (34 * E * (1 + ueps)); [|nra]. apply Rmult_le_compat; [apply Rabs_pos|apply Rabs_pos|apply Rabs_le; lra|]. eapply Rle_trans; [apply Rabs_triang|]. rewrite Rabs_R1. lra. }
  destruct (fsub_fin x y Fi F0) as [F V]; [eapply Rle_lt_trans; [exact Q|]; lra|]. destruct tol7_ok as [Ft Vt].
  apply flt_val; [exact F|exact Ft|]. rewrite V. apply Rabs_le_inv in Q. apply Rle_lt_trans with (bpow radix2 6 * E); [change (bpow radix2 6) with 64; lra|].
  unfold E. rewrite <- bpow_plus. eapply Rle_lt_trans; [|exact Vt]. apply bpow_le. lia.
Qed.
(** Both axes above do. *)
Theorem C106_axes_pass : forall dt n l k, ordinary dt n -> IZR n * val dt <= bpow radix2 20 -> (time_f dt n = Ok l \/ axis_f dt n = Ok l) -> (0 < k)%nat -> (Z.of_nat k < n)%Z -> even_f k l = Ok true.
Proof.
  intros dt n l k O B [E|E] Hk Hn; pose proof (ord_pos _ _ O) as D.
  - destruct (C106_times dt n O) as (l' & E' & A & _). rewrite E in E'. injection E' as <-. pose proof A as (Ll & _). apply (C106_even_check (val dt) 0 n); try assumption; [lra| |lia]. rewrite Ll, INR_IZR_INZ, Z2Nat.id by lia. exact B.
  - destruct (C106_axis_accepted dt n O) as (l' & E' & A & _). rewrite E in E'. injection E' as <-. pose proof A as (Ll & _). apply (C106_even_check (val dt) 1 n); try assumption; [lra| |lia]. rewrite Ll, INR_IZR_INZ, Z2Nat.id by lia. exact B.
Qed.

(** 200 samples at 0.01 s, and 200 at 1/64 s. *)
Lemma d001_range : fin d001 = true /\ bpow radix2 (-7) <= val d001 <= bpow radix2 (-6).
Proof.
  destruct (lit_ok 5764607523034235 (-59) ltac:(lia) ltac:(lia)) as [F V]. fold d001 in F, V. split; [exact F|]. rewrite V. replace (-7)%Z with (52 + -59)%Z by reflexivity. replace (-6)%Z with (53 + -59)%Z by reflexivity. rewrite !bpow_plus. pose proof (bpow_gt_0 radix2 (-59)).
  split; (apply Rmult_le_compat_r; [lra|]); [change (bpow radix2 52) with (IZR (2 ^ 52))|change (bpow radix2 53) with (IZR (2 ^ 53))]; apply IZR_le; lia.
Qed.
Lemma ordinary_200 : ordinary d001 200 /\ IZR 200 * val d001 <= bpow radix2 20.
Proof.
  destruct d001_range as [F [A B]]. assert (C : IZR 200 * val d001 <= bpow radix2 20).
  { apply Rle_trans with (bpow radix2 8 * bpow radix2 (-6)); [apply Rmult_le_compat; [lra|pose proof (bpow_gt_0 radix2 (-7)); lra|change (bpow radix2 8) with 256; lra|exact B]|]. rewrite <- bpow_plus. apply bpow_le. lia. }
  split; [|exact C]. split; [exact F|]. split; [eapply Rle_trans; [|exact A]; apply bpow_le; lia|]. split; [lia|]. eapply Rle_trans; [exact C|]. apply bpow_le. lia.
Qed.
Example C106_instance : ordinary d001 200 /\ (exists t, axis_f d001 200 = Ok t /\ even_axis (val d001) 1 200 t /\ even_f 7 t = Ok true) /\
  (exists l, time_f (lit 1 (-6)) 200 = Ok l /\ forall k, (k < 200)%nat -> val (nth k l f0) = INR k * / 64).
Proof.
  destruct ordinary_200 as [O B]. split; [exact O|]. split.
  - destruct (C106_axis_accepted d001 200 O) as (t & E & A & _). exists t. split; [exact E|]. split; [exact A|]. apply (C106_axes_pass d001 200 t 7 O B); [right; exact E|lia|lia].
  - destruct (lit_ok 1 (-6) ltac:(lia) ltac:(lia)) as [F V].
    destruct (C106_exact (lit 1 (-6)) 200 1 (-6) F V) as [(l & E & _ & K) _]; [lia..| |].
    { rewrite V. change (bpow radix2 (-6)) with (/ 64). apply Rlt_trans with (bpow radix2 10); [change (bpow radix2 10) with 1024; lra|apply bpow_lt; lia]. }
    exists l. split; [exact E|]. intros k Hk. destruct (K k Hk) as [_ ->]. rewrite V. change (bpow radix2 (-6)) with (/ 64). ring.
Qed.

(** Time arrays with fewer than two samples are refused, whatever the other one is. *)
Theorem C106_align_short : forall t1 t2, (List.length t1 < 2 \/ List.length t2 < 2)%nat -> align_f t1 t2 = Err ValueError.
Proof.
  intros t1 t2 H. unfold align_f. destruct (Nat.ltb_spec (List.length t1) 2); [reflexivity|]. destruct (Nat.ltb_spec (List.length t2) 2); [reflexivity|]. lia.
Qed.
