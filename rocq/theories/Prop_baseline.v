(** Theorems about baseline correction: C81. *)
From Coq Require Import Reals List Bool ZArith Lia Lra Psatz.
From Verif Require Import Base M_generic M_motion M_interp M_soil M_signal P_motion P_interp Prop_fourier Prop_filter Prop_trend.
Import ListNotations.
Open Scope R_scope.

Section C81.
Variable butter : nat -> fkind -> list R -> list section.

(** The record after removing the mean of the first five samples. *)
Definition pre_removed (x : list R) : list R := map (fun v => v - (nth 0 x 0 + nth 1 x 0 + nth 2 x 0 + nth 3 x 0 + nth 4 x 0) / 5) x.
Definition pad_count (dt f : R) (cl : nat) : nat := Z.to_nat (Z.max 1000 (Z.max (rint (15 / 10 * 2 / f / dt)) (Z.of_nat (cl + 1)))).
Lemma pad_count_ge dt f cl : (1000 <= pad_count dt f cl /\ cl + 1 <= pad_count dt f cl)%nat.
Proof. unfold pad_count. lia. Qed.

Lemma first_step_pad dt (a : list R) : (2 <= length a)%nat -> first_step (combine (linspace dt (INR (length a) * dt) (length a)) a) = Ok dt.
Proof.
  intros H. set (s := combine _ a). assert (T : times s = linspace dt (INR (length a) * dt) (length a)).
  { unfold s, times. assert (G : forall l1 l2 : list R, length l1 = length l2 -> map fst (combine l1 l2) = l1) by (clear; induction l1 as [|x l1 IH]; intros [|y l2] E; try discriminate; [reflexivity|]; cbn [combine map fst]; rewrite IH by (cbn in E; lia); reflexivity). apply G. apply P_interp.linspace_length. }
  unfold first_step. rewrite T. rewrite (get_ok _ 1 0), (get_ok _ 0 0) by (rewrite P_interp.linspace_length; lia). cbn [bind]. rewrite !linspace_nth' by lia. f_equal.
  assert (0 < INR (length a - 1)) by (apply lt_0_INR; lia). rewrite minus_INR in * by lia. cbn [INR] in *. field. lra.
Qed.

(** What the correction does before integrating: the trimmed record, preceded by as many
    zeros as samples were trimmed plus one, filtered. *)
Definition cascade (dt f : R) : list section := if Rltb f 0 then [] else butter 4 Highpass [2 * dt * f].
Lemma core_spec s f dt : first_step s = Ok dt -> 0 < dt -> (5 <= length s)%nat -> f <> 0 -> 2 * dt * f < 1 ->
  let a := pre_removed (vals s) in
  exists y, baseline_core butter s f = Ok y /\ length y = length s /\ forall k, (k < length s)%nat ->
    nth k y 0 = if Nat.leb k (cross_left a) then 0
                else nth (k - cross_left a - 1) (sosfilt (cascade dt f) (slice (cross_left a) (cross_right a + 1) a ++ repeat 0 (pad_count dt f (cross_left a)))) 0.
Proof.
  intros F Hd HN Hf Hf1. cbv zeta. unfold baseline_core. rewrite F. cbn [bind]. rewrite vals_length. rewrite (proj2 (Nat.ltb_ge _ _)) by exact HN. rewrite (proj2 (Reqb_false f 0)) by exact Hf.
  fold (pre_removed (vals s)). set (a := pre_removed (vals s)). set (cl := cross_left a). set (ac := slice cl (cross_right a + 1) a). fold (pad_count dt f cl). set (nr := pad_count dt f cl).
  destruct (pad_count_ge dt f cl) as [N1 N2]. fold nr in N1, N2. set (P := repeat 0 nr ++ ac ++ repeat 0 nr).
  assert (LP : (2 <= length P)%nat) by (unfold P; rewrite app_length, repeat_length; lia). unfold filter_high. rewrite first_step_pad by exact LP. cbn [bind].
  set (ps := combine (linspace dt (INR (length P) * dt) (length P)) P).
  assert (LS : length ps = length P) by (unfold ps; rewrite combine_length, P_interp.linspace_length; lia).
  assert (VP : vals ps = P). { unfold ps, vals. assert (G : forall l1 l2 : list R, length l1 = length l2 -> map snd (combine l1 l2) = l2) by (clear; induction l1 as [|x l1 IH]; intros [|y l2] E; try discriminate; [reflexivity|]; cbn [combine map snd]; rewrite IH by (cbn in E; lia); reflexivity). apply G. apply P_interp.linspace_length. }
  assert (FX : forall o : fout, vals (out_of ps o) = sosfilt (cascade dt f) P -> exists y,
    Ok (if Nat.leb (length s) (length (skipn (nr - cl - 1) (vals (out_of ps o)))) then firstn (length s) (skipn (nr - cl - 1) (vals (out_of ps o)))
        else skipn (nr - cl - 1) (vals (out_of ps o)) ++ repeat 0 (length s - length (skipn (nr - cl - 1) (vals (out_of ps o))))) = Ok y /\ length y = length s /\
    forall k, (k < length s)%nat -> nth k y 0 = if Nat.leb k cl then 0 else nth (k - cl - 1) (sosfilt (cascade dt f) (ac ++ repeat 0 nr)) 0).
  { intros o E. rewrite E. unfold P. rewrite sosfilt_delay. set (Fl := sosfilt (cascade dt f) (ac ++ repeat 0 nr)). set (Y := skipn (nr - cl - 1) (repeat 0 nr ++ Fl)). eexists. split; [reflexivity|].
    assert (YV : forall k, nth k Y 0 = if Nat.leb k cl then 0 else nth (k - cl - 1) Fl 0).
    { intros k. unfold Y. rewrite <- (firstn_skipn (nr - cl - 1) (repeat 0 nr ++ Fl)) at 1.
      assert (SK : forall (l : list R) m i, nth i (skipn m l) 0 = nth (m + i) l 0) by (clear; induction l as [|x l IH]; intros [|m] i; cbn [skipn Nat.add nth]; try reflexivity; [destruct i; reflexivity|apply IH]).
      rewrite firstn_skipn, SK. destruct (Nat.leb_spec k cl).
      - rewrite app_nth1 by (rewrite repeat_length; lia). apply nth_repeat.
      - rewrite app_nth2 by (rewrite repeat_length; lia). rewrite repeat_length. f_equal. lia. }
    split.
    - destruct (Nat.leb_spec (length s) (length Y)); [rewrite firstn_length; lia|rewrite app_length, repeat_length; lia].
    - intros k Hk. rewrite <- YV. destruct (Nat.leb_spec (length s) (length Y)).
      + assert (FN : forall (l : list R) m i, (i < m)%nat -> nth i (firstn m l) 0 = nth i l 0) by (clear; induction l as [|x l IH]; intros [|m] [|i] H; cbn [firstn nth]; try reflexivity; try lia; apply IH; lia). apply FN, Hk.
      + destruct (Nat.lt_ge_cases k (length Y)); [apply app_nth1; assumption|]. rewrite app_nth2 by assumption. rewrite nth_repeat, nth_overflow by assumption. reflexivity. }
  destruct (Rlt_le_dec f 0) as [Q|Q].
  - rewrite (proj2 (Rleb_true f 0)) by lra. cbn [bind]. apply FX. cbn [out_of]. rewrite VP. unfold cascade. rewrite (proj2 (Rltb_true f 0)) by exact Q. reflexivity.
  - rewrite (proj2 (Rleb_false f 0)) by lra. unfold design. rewrite normalised by exact Hd. cbn [forallb]. assert (0 < 2 * dt * f) by nra. rewrite (proj2 (Rltb_true 0 _)), (proj2 (Rltb_true _ 1)) by lra. cbn [andb bind]. apply FX. cbn [out_of].
    rewrite VP. destruct (Prop_filter.combine_times ps (sosfilt (butter 4 Highpass [2 * dt * f]) P)) as [_ ->]; [rewrite sosfilt_length; congruence|]. unfold cascade. rewrite (proj2 (Rltb_false f 0)) by lra. reflexivity.
Qed.

Lemma core_errors s f : 
  ((length s < 5)%nat -> baseline_core butter s f = Err IndexError) /\
  ((5 <= length s)%nat -> f = 0 -> baseline_core butter s f = Err ZeroDivisionError) /\
  (forall dt, (5 <= length s)%nat -> first_step s = Ok dt -> 0 < dt -> 1 <= 2 * dt * f -> baseline_core butter s f = Err ValueError).
Proof.
  split; [|split].
  - intros H. unfold baseline_core. destruct (Nat.lt_ge_cases (length s) 2).
    + rewrite P_motion.first_step_err by assumption. reflexivity.
    + rewrite P_motion.first_step_ok by assumption. cbn [bind]. rewrite vals_length, (proj2 (Nat.ltb_lt _ _)) by exact H. reflexivity.
  - intros H ->. unfold baseline_core. rewrite P_motion.first_step_ok by lia. cbn [bind]. rewrite vals_length, (proj2 (Nat.ltb_ge _ _)) by exact H. rewrite (proj2 (Reqb_true 0 0)) by reflexivity. reflexivity.
  - intros dt H F Hd Hf. unfold baseline_core. rewrite F. cbn [bind]. rewrite vals_length, (proj2 (Nat.ltb_ge _ _)) by exact H. assert (0 < f) by (destruct (Rlt_le_dec 0 f); [assumption|nra]). rewrite (proj2 (Reqb_false f 0)) by lra.
    fold (pre_removed (vals s)). set (a := pre_removed (vals s)). set (cl := cross_left a). set (ac := slice cl (cross_right a + 1) a). fold (pad_count dt f cl). destruct (pad_count_ge dt f cl) as [N1 _]. set (P := repeat 0 (pad_count dt f cl) ++ ac ++ repeat 0 (pad_count dt f cl)).
    assert (LP : (2 <= length P)%nat) by (unfold P; rewrite app_length, repeat_length; lia). unfold filter_high. rewrite first_step_pad by exact LP. cbn [bind]. rewrite (proj2 (Rleb_false f 0)) by lra. unfold design. rewrite normalised by exact Hd. cbn [forallb]. rewrite (proj2 (Rltb_false (2 * dt * f) 1)) by lra. rewrite andb_false_r. reflexivity.
Qed.

(** The whole correction in terms of the filtered record. *)
Lemma baseline_steps s f y : (2 <= length s)%nat -> baseline_core butter s f = Ok y -> length y = length s -> exists v u v2 r,
  num_int (with_vals s y) = Ok (v, u) /\ num_diff (remove_linear_trend u) = Ok v2 /\ num_diff v2 = Ok r /\ baseline butter s f = Ok r /\
  times u = times s /\ length u = length s /\ times v2 = times s /\ length v2 = length s /\ times r = times s /\ length r = length s /\ nth 0 (vals v2) 0 = 0 /\ nth 0 (vals r) 0 = 0.
Proof.
  intros Hn E L. unfold baseline. rewrite E. cbn [bind]. assert (LW : length (with_vals s y) = length s) by (apply P_motion.with_vals_length, L).
  destruct (num_int_spec (with_vals s y) ltac:(lia)) as (v & u & E1 & Tv & Tu & Lv & Lu & _ & _). rewrite P_motion.times_with_vals in Tu by exact L. rewrite E1. cbn [bind snd].
  destruct (num_diff_spec (remove_linear_trend u)) as (v2 & E2 & T2 & L2 & Z2 & _); [apply ne_of_len; rewrite remove_length; lia|]. rewrite E2. cbn [bind].
  destruct (num_diff_spec v2) as (r & E3 & T3 & L3 & Z3 & _); [apply ne_of_len; rewrite L2, remove_length; lia|]. rewrite remove_times in T2. rewrite remove_length in L2.
  exists v, u, v2, r. rewrite E3. repeat split; try congruence; reflexivity.
Qed.

Theorem C81_outcomes : forall s f dt, first_step s = Ok dt -> 0 < dt ->
  ((length s < 5)%nat -> baseline butter s f = Err IndexError) /\
  ((5 <= length s)%nat -> f = 0 -> baseline butter s f = Err ZeroDivisionError) /\
  ((5 <= length s)%nat -> 1 <= 2 * dt * f -> baseline butter s f = Err ValueError) /\
  ((5 <= length s)%nat -> f <> 0 -> 2 * dt * f < 1 -> exists r, baseline butter s f = Ok r /\ times r = times s /\ length r = length s /\ nth 0 (vals r) 0 = 0).
Proof.
  intros s f dt F Hd. destruct (core_errors s f) as (E1 & E2 & E3). unfold baseline at 1 2 3. split; [intros H; rewrite E1 by exact H; reflexivity|]. split; [intros H H0; rewrite E2 by assumption; reflexivity|]. split; [intros H H0; rewrite (E3 dt) by assumption; reflexivity|].
  intros H Hf Hf1. destruct (core_spec s f dt F Hd H Hf Hf1) as (y & Ey & Ly & _). destruct (baseline_steps s f y ltac:(lia) Ey Ly) as (v & u & v2 & r & _ & _ & _ & Er & _ & _ & _ & _ & Tr & Lr & _ & Zr). exists r. auto.
Qed.

(** ** One zero crossing *)
Lemma first_change_none sgn l : forall i, (forall x, In x l -> positive x = sgn) -> first_change sgn l i = None.
Proof. induction l as [|x l IH]; intros i H; cbn [first_change]; [reflexivity|]. rewrite (H x) by (left; reflexivity). rewrite eqb_reflx. apply IH. intros; apply H; right; assumption. Qed.
Lemma first_change_at sgn l1 x l2 : forall i, (forall z, In z l1 -> positive z = sgn) -> positive x = negb sgn -> first_change sgn (l1 ++ x :: l2) i = Some (i + length l1)%nat.
Proof.
  induction l1 as [|z l1 IH]; intros i H Hx; cbn [app first_change length].
  - rewrite Hx. destruct sgn; cbn; f_equal; lia.
  - rewrite (H z) by (left; reflexivity). rewrite eqb_reflx. rewrite IH; [f_equal; lia|intros; apply H; right; assumption|exact Hx].
Qed.
Lemma one_crossing l1 l2 sgn : l1 <> [] -> l2 <> [] -> (forall z, In z l1 -> positive z = sgn) -> (forall z, In z l2 -> positive z = negb sgn) ->
  cross_left (l1 ++ l2) = length l1 /\ cross_right (l1 ++ l2) = (length l1 - 1)%nat.
Proof.
  intros N1 N2 H1 H2. split.
  - destruct l1 as [|x l1]; [congruence|]. cbn [app cross_left]. rewrite (H1 x) by (left; reflexivity). destruct l2 as [|y l2]; [congruence|]. rewrite first_change_at; [reflexivity|intros; apply H1; right; assumption|apply H2; left; reflexivity].
  - unfold cross_right. rewrite rev_app_distr. destruct (rev l2) as [|y m] eqn:E; [apply (f_equal (@length R)) in E; rewrite rev_length in E; destruct l2; [congruence|discriminate]|].
    assert (IN : forall z, In z (y :: m) -> positive z = negb sgn) by (intros z Hz; apply H2; apply in_rev; rewrite E; exact Hz). cbn [app]. rewrite (IN y) by (left; reflexivity).
    destruct (rev l1) as [|x m'] eqn:E'; [apply (f_equal (@length R)) in E'; rewrite rev_length in E'; destruct l1; [congruence|discriminate]|].
    rewrite first_change_at; [|intros; apply IN; right; assumption|rewrite negb_involutive; apply H1; apply in_rev; rewrite E'; left; reflexivity].
    apply (f_equal (@length R)) in E. rewrite rev_length in E. cbn in E. rewrite app_length. destruct l1; [congruence|]. cbn [length]. lia.
Qed.

Lemma zero_record (s : signal) : (2 <= length s)%nat -> (forall k, nth k (vals s) 0 = 0) -> exists v u, num_int s = Ok (v, u) /\ length u = length s /\ times u = times s /\ forall k, nth k (vals u) 0 = 0.
Proof.
  intros H Z. destruct (num_int_spec s H) as (v & u & E & Tv & Tu & Lv & Lu & Hv & Hu). exists v, u. split; [exact E|]. split; [exact Lu|]. split; [exact Tu|].
  assert (RZ : forall l : list R, (forall k, nth k l 0 = 0) -> forall m, rsum (firstn m l) = 0).
  { induction l as [|x l IH]; intros Hl [|m]; cbn [firstn rsum]; try reflexivity. pose proof (Hl 0%nat) as H0. cbn in H0. rewrite H0, IH; [ring|]. intros k. apply (Hl (S k)). }
  assert (Zv : forall k, nth k (vals v) 0 = 0).
  { intros k. destruct (Nat.lt_ge_cases k (length s)); [rewrite Hv by assumption; rewrite RZ by exact Z; ring|apply nth_overflow; rewrite P_motion.vals_length; lia]. }
  intros k. destruct (Nat.lt_ge_cases k (length s)); [rewrite Hu by assumption; rewrite RZ by exact Zv; ring|apply nth_overflow; rewrite P_motion.vals_length; lia].
Qed.
Lemma zero_diff (s : signal) : (2 <= length s)%nat -> (forall k, nth k (vals s) 0 = 0) -> exists v, num_diff s = Ok v /\ length v = length s /\ forall k, nth k (vals v) 0 = 0.
Proof.
  intros H Z. destruct (num_diff_spec s) as (v & E & T & L & V0 & VS); [apply ne_of_len; exact H|]. exists v. split; [exact E|]. split; [exact L|]. intros [|k]; [exact V0|].
  destruct (Nat.lt_ge_cases (S k) (length s)); [rewrite VS by assumption; rewrite !Z; unfold Rdiv; ring|apply nth_overflow; rewrite P_motion.vals_length; lia].
Qed.
Lemma zero_trend (s : signal) : (forall k, nth k (vals s) 0 = 0) -> forall k, nth k (vals (remove_linear_trend s)) 0 = 0.
Proof.
  intros Z. assert (A : forall p, In p s -> snd p = 0). { intros p Hp. destruct (In_nth s p (0, 0) Hp) as (k & Hk & <-). transitivity (nth k (vals s) 0); [|apply Z]. unfold vals. symmetry. apply (map_nth snd s (0, 0)). }
  assert (M : mx s = 0). { unfold mx. rewrite (S_ext _ (fun _ => 0)) by exact A. rewrite S_const. unfold Rdiv. ring. }
  assert (X : Stx s = 0). { unfold Stx. rewrite M. rewrite (S_ext _ (fun _ => 0)) by (intros p Hp; rewrite (A p Hp); ring). rewrite S_const. ring. }
  intros k. rewrite remove_vals. unfold slope. rewrite M, X. set (g := fun p : R * R => snd p - 0 - 0 / Stt s * (fst p - mt s)). destruct (Nat.lt_ge_cases k (length s)) as [Hk|Hk]; [|apply nth_overflow; rewrite map_length; exact Hk].
  rewrite nth_indep with (d' := g (0, 0)) by (rewrite map_length; exact Hk). rewrite map_nth. unfold g. rewrite (A (nth k s (0, 0))) by (apply nth_In, Hk). unfold Rdiv. ring.
Qed.

(** A record whose sign (after removing the mean of its first five samples) changes only
    once is trimmed to nothing: the corrected record is zero throughout (finding). *)
Theorem C81_one_crossing_vanishes : forall s f dt m sgn, first_step s = Ok dt -> 0 < dt -> (5 <= length s)%nat -> f <> 0 -> 2 * dt * f < 1 -> (0 < m < length s)%nat ->
  (forall i, (i < m)%nat -> (0 <= nth i (pre_removed (vals s)) 0 <-> sgn = true)) -> (forall i, (m <= i < length s)%nat -> (0 <= nth i (pre_removed (vals s)) 0 <-> sgn = false)) ->
  exists r, baseline butter s f = Ok r /\ times r = times s /\ length r = length s /\ forall k, nth k (vals r) 0 = 0.
Proof.
  intros s f dt m sgn F Hd HN Hf Hf1 Hm H1 H2. destruct (core_spec s f dt F Hd HN Hf Hf1) as (y & Ey & Ly & V). set (a := pre_removed (vals s)) in *.
  assert (La : length a = length s) by (unfold a, pre_removed; rewrite map_length; apply P_motion.vals_length).
  assert (PS : forall z b, (0 <= z <-> b = true) -> positive z = b). { intros z b Hz. unfold positive. destruct (Rleb_spec 0 z), b; tauto || (exfalso; intuition congruence). }
  assert (C : cross_left a = m /\ cross_right a = (m - 1)%nat).
  { rewrite <- (firstn_skipn m a). assert (LF : length (firstn m a) = m) by (rewrite firstn_length; lia). 
    assert (OC : cross_left (firstn m a ++ skipn m a) = length (firstn m a) /\ cross_right (firstn m a ++ skipn m a) = (length (firstn m a) - 1)%nat); [|rewrite LF in OC; exact OC].
    apply one_crossing with (sgn := sgn).
    - intros E. rewrite E in LF. cbn in LF. lia.
    - intros E. apply (f_equal (@length R)) in E. rewrite skipn_length in E. cbn in E. lia.
    - intros z Hz. destruct (In_nth _ z 0 Hz) as (i & Hi & <-). rewrite LF in Hi. apply PS. rewrite <- (firstn_skipn m a) in H1. specialize (H1 i Hi). rewrite app_nth1 in H1 by lia. exact H1.
    - intros z Hz. destruct (In_nth _ z 0 Hz) as (i & Hi & <-). rewrite skipn_length in Hi. apply PS. rewrite <- (firstn_skipn m a) in H2. specialize (H2 (m + i)%nat ltac:(lia)). rewrite app_nth2 in H2 by lia. rewrite LF in H2. replace (m + i - m)%nat with i in H2 by lia. rewrite H2. clear; destruct sgn; cbn; split; congruence. }
  destruct C as [C1 C2]. rewrite C1, C2 in V. replace (m - 1 + 1)%nat with m in V by lia. assert (SE : slice m m a = []) by (unfold slice; rewrite Nat.sub_diag; reflexivity). rewrite SE in V. cbn [app] in V. rewrite sosfilt_zero in V.
  assert (Y0 : forall k, nth k y 0 = 0). { intros k. destruct (Nat.lt_ge_cases k (length s)); [|apply nth_overflow; lia]. rewrite V by assumption. destruct (Nat.leb k m); [reflexivity|apply nth_repeat]. }
  destruct (baseline_steps s f y ltac:(lia) Ey Ly) as (v & u & v2 & r & E1 & E2 & E3 & Er & Tu & Lu & T2 & L2 & Tr & Lr & _ & _). exists r. split; [exact Er|]. split; [exact Tr|]. split; [exact Lr|].
  destruct (zero_record (with_vals s y)) as (v' & u' & E1' & _ & _ & Zu); [rewrite P_motion.with_vals_length by exact Ly; lia|intros k; rewrite P_motion.vals_with_vals by exact Ly; apply Y0|]. rewrite E1 in E1'. injection E1' as <- <-.
  destruct (zero_diff (remove_linear_trend u)) as (v2' & E2' & _ & Z2); [rewrite remove_length; lia|apply zero_trend, Zu|]. rewrite E2 in E2'. injection E2' as <-.
  destruct (zero_diff v2) as (r' & E3' & _ & Z3); [lia|exact Z2|]. rewrite E3 in E3'. injection E3' as <-. exact Z3.
Qed.

(** ** The corrected displacement has no drift *)
Theorem C81_no_drift : forall s f r v u, (5 <= length s)%nat -> evenly_spaced s -> 0 < step_of s -> baseline butter s f = Ok r -> num_int r = Ok (v, u) ->
  fit_slope (times u) (vals u) = 0 /\ nth 0 (vals u) 0 = 0.
Proof.
  intros s f r v u HN He Hd Er Ei. assert (Hn : (2 <= length s)%nat) by lia. pose proof (P_motion.first_step_ok s Hn) as F.
  assert (C : exists y, baseline_core butter s f = Ok y /\ length y = length s).
  { destruct (Req_dec f 0) as [Z|Z]; [exfalso; unfold baseline in Er; rewrite (proj1 (proj2 (core_errors s f)) HN Z) in Er; discriminate|].
    destruct (Rlt_le_dec (2 * step_of s * f) 1) as [Q|Q]; [destruct (core_spec s f _ F Hd HN Z Q) as (y & E & L & _); eauto|]. exfalso. unfold baseline in Er. rewrite (proj2 (proj2 (core_errors s f)) _ HN F Hd Q) in Er. discriminate. }
  destruct C as (y & Ey & Ly). destruct (baseline_steps s f y Hn Ey Ly) as (v0 & u0 & v2 & r' & E1 & E2 & E3 & Er' & Tu0 & Lu0 & T2 & L2 & Tr & Lr & Z2 & _). rewrite Er in Er'. injection Er' as <-.
  set (w := remove_linear_trend u0) in *. assert (Tw : times w = times s) by (unfold w; rewrite remove_times; exact Tu0). assert (Lw : length w = length s) by (unfold w; rewrite remove_length; exact Lu0).
  assert (Hdn : step_of s <> 0) by lra.
  pose proof (int_after_diff v2 r v u ltac:(lia) (evenly_same s v2 (eq_sym T2) (eq_sym L2) He) ltac:(rewrite (step_same v2 s T2); exact Hdn) E3 Ei) as Vv.
  destruct (num_int_spec r ltac:(lia)) as (vv & uu & Ei' & Tv & Tu & Lv & Lu & _ & Hu). rewrite Ei in Ei'. injection Ei' as <- <-.
  destruct (num_diff_spec w) as (v2' & E2' & _ & _ & _ & V2); [apply ne_of_len; lia|]. rewrite E2 in E2'. injection E2' as <-.
  assert (U : forall k, (k < length s)%nat -> nth k (vals u) 0 = nth k (vals w) 0 - nth 0 (vals w) 0).
  { rewrite (step_same r s Tr) in Hu. rewrite Lr in Hu. induction k as [|k IH]; intros Hk.
    - rewrite Hu by exact Hk. rewrite rsum_firstn_1 by (rewrite P_motion.vals_length; lia). rewrite Vv by lia. rewrite Z2. ring.
    - rewrite Hu by exact Hk. rewrite rsum_firstn_S by (rewrite P_motion.vals_length; lia). rewrite Vv by lia. rewrite Z2, V2 by lia. rewrite Tw, He by exact Hk. specialize (IH ltac:(lia)). rewrite Hu in IH by lia. rewrite Rmult_plus_distr_l, IH. field. exact Hdn. }
  split; [|rewrite U by lia; ring].
  assert (SPu : spread u0). { destruct s as [|p0 [|p1 s']]; [cbn in Hn; lia..|]. apply (spread_times (p0 :: p1 :: s')); [exact Tu0|]. exists p0, p1. split; [left; reflexivity|]. split; [right; left; reflexivity|]. unfold step_of, times in Hd. cbn in Hd. lra. }
  destruct (C34_residual_orthogonal u0 SPu) as [R1 R2]. fold w in R1, R2.
  set (c := nth 0 (vals w) 0) in *. assert (Uw : u = map (fun p => (fst p, snd p - c)) w).
  { apply signal_ext.
    - transitivity (times w); [congruence|]. unfold times. rewrite map_map. reflexivity.
    - unfold vals at 2. rewrite map_map. cbn [snd]. apply (list_ext 0); [rewrite P_motion.vals_length, map_length; congruence|]. intros k Hk. rewrite P_motion.vals_length in Hk. rewrite U by congruence. unfold vals.
      set (g := fun p : R * R => snd p - c). rewrite (nth_indep (map g w) 0 (g (0, 0))) by (rewrite map_length; congruence). rewrite (map_nth g). unfold g. f_equal. exact (map_nth snd w (0, 0) k). }
  rewrite slope_eq. assert (SW : spread w) by (apply (spread_times u0); [apply remove_times|exact SPu]). assert (NW : 0 < INR (length w)) by (apply spread_len, SW).
  assert (X : Stx u = 0).
  { unfold Stx. rewrite Uw. rewrite S_map. cbn [fst snd]. assert (Mt : mt (map (fun p => (fst p, snd p - c)) w) = mt w) by (unfold mt; rewrite S_map, map_length; reflexivity).
    assert (Mx : mx (map (fun p => (fst p, snd p - c)) w) = - c). { unfold mx. rewrite S_map, map_length. cbn [snd]. rewrite (S_ext _ (fun p => snd p + - c)) by (intros; ring). rewrite S_plus, S_const. unfold S_. unfold vals in R1. rewrite R1. field. lra. }
    rewrite Mt, Mx. transitivity (S_ (fun p => fst p * snd p) w + - mt w * S_ snd w); [rewrite <- S_scal, <- S_plus; apply S_ext; intros; ring|]. unfold S_. unfold vals in R1. rewrite R1, R2. ring. }
  rewrite X. unfold Rdiv. ring.
Qed.

(** ** Scaling *)
Definition sc (c : R) (s : signal) : signal := map (fun p => (fst p, c * snd p)) s.
Lemma sc_times c s : times (sc c s) = times s. Proof. unfold sc, times. rewrite map_map. reflexivity. Qed.
Lemma sc_vals c s : vals (sc c s) = map (Rmult c) (vals s). Proof. unfold sc, vals. rewrite !map_map. reflexivity. Qed.
Lemma sc_length c s : length (sc c s) = length s. Proof. apply map_length. Qed.
Lemma mul_nth_c c (l : list R) k : nth k (map (Rmult c) l) 0 = c * nth k l 0.
Proof. replace 0 with (c * 0) at 1 by ring. apply (map_nth (Rmult c)). Qed.
Lemma rsum_scale c l : rsum (map (Rmult c) l) = c * rsum l.
Proof. induction l as [|x l IH]; cbn [map rsum]; [ring|rewrite IH; ring]. Qed.
Lemma num_int_sc c s v u : num_int s = Ok (v, u) -> num_int (sc c s) = Ok (sc c v, sc c u).
Proof.
  intros E. destruct (Nat.lt_ge_cases (length s) 2) as [H|H]; [unfold num_int in E; rewrite P_motion.first_step_err in E by exact H; discriminate|].
  destruct (num_int_spec s H) as (v0 & u0 & E0 & Tv & Tu & Lv & Lu & Hv & Hu). rewrite E in E0. injection E0 as <- <-.
  destruct (num_int_spec (sc c s)) as (v1 & u1 & E1 & Tv1 & Tu1 & Lv1 & Lu1 & Hv1 & Hu1); [rewrite sc_length; exact H|]. rewrite E1. rewrite sc_times in *. rewrite sc_length in *.
  assert (SS : step_of (sc c s) = step_of s) by (apply step_same, sc_times). rewrite SS in *.
  assert (EV : v1 = sc c v).
  { apply signal_ext; [rewrite sc_times; congruence|]. rewrite sc_vals. apply (list_ext 0); [rewrite map_length, !P_motion.vals_length; congruence|]. intros k Hk. rewrite P_motion.vals_length in Hk. rewrite Hv1, mul_nth_c, Hv by congruence. rewrite sc_vals, firstn_map, rsum_scale. ring. }
  assert (EU : u1 = sc c u).
  { apply signal_ext; [rewrite sc_times; congruence|]. rewrite sc_vals. apply (list_ext 0); [rewrite map_length, !P_motion.vals_length; congruence|]. intros k Hk. rewrite P_motion.vals_length in Hk. rewrite Hu1, mul_nth_c, Hu by congruence. rewrite EV, sc_vals, firstn_map, rsum_scale. ring. }
  rewrite EV, EU. reflexivity.
Qed.
Lemma num_diff_sc c s v : num_diff s = Ok v -> num_diff (sc c s) = Ok (sc c v).
Proof.
  intros E. assert (NE : s <> []) by (intros ->; discriminate). destruct (num_diff_spec s NE) as (v0 & E0 & Tv & Lv & H0 & HS). rewrite E in E0. injection E0 as <-.
  destruct (num_diff_spec (sc c s)) as (v1 & E1 & Tv1 & Lv1 & H01 & HS1); [destruct s; [congruence|discriminate]|]. rewrite E1. f_equal. rewrite sc_times in *. rewrite sc_length in *.
  apply signal_ext; [rewrite sc_times; congruence|]. rewrite sc_vals. apply (list_ext 0); [rewrite map_length, !P_motion.vals_length; congruence|]. intros [|k] Hk; rewrite P_motion.vals_length in Hk.
  - rewrite H01, mul_nth_c, H0. ring.
  - rewrite HS1, mul_nth_c, HS by congruence. rewrite sc_vals, !mul_nth_c. unfold Rdiv. ring.
Qed.
Lemma trend_sc c s : remove_linear_trend (sc c s) = sc c (remove_linear_trend s).
Proof.
  rewrite !remove_eq.
  assert (Mt : mt (sc c s) = mt s) by (unfold mt; rewrite sc_length; unfold sc; rewrite S_map; reflexivity).
  assert (Mx : mx (sc c s) = c * mx s) by (unfold mx; rewrite sc_length; unfold sc; rewrite S_map; cbn [snd]; rewrite S_scal; unfold Rdiv; ring).
  assert (Tt : Stt (sc c s) = Stt s) by (unfold Stt; rewrite Mt; unfold sc; rewrite S_map; reflexivity).
  assert (Tx : Stx (sc c s) = c * Stx s) by (unfold Stx; rewrite Mt, Mx; unfold sc; rewrite S_map; cbn [fst snd]; rewrite <- S_scal; apply S_ext; intros; ring).
  unfold slope. rewrite Mt, Mx, Tt, Tx. unfold sc. rewrite !map_map. cbn [fst snd]. apply map_ext. intros p. f_equal. unfold Rdiv. ring.
Qed.
Lemma pre_removed_scale c x : (5 <= length x)%nat -> pre_removed (map (Rmult c) x) = map (Rmult c) (pre_removed x).
Proof. intros H. unfold pre_removed. rewrite !mul_nth_c, !map_map. apply map_ext. intros v. field. Qed.
Lemma positive_scale c z : 0 < c -> positive (c * z) = positive z.
Proof. intros H. unfold positive. destruct (Rleb_spec 0 (c * z)), (Rleb_spec 0 z); try reflexivity; nra. Qed.
Lemma first_change_scale c sgn l : 0 < c -> forall i, first_change sgn (map (Rmult c) l) i = first_change sgn l i.
Proof. intros H. induction l as [|z l IH]; intros i; cbn [map first_change]; [reflexivity|]. rewrite positive_scale by exact H. destruct (Bool.eqb _ _); [apply IH|reflexivity]. Qed.
Lemma cross_scale c l : 0 < c -> cross_left (map (Rmult c) l) = cross_left l /\ cross_right (map (Rmult c) l) = cross_right l.
Proof.
  intros H. split.
  - destruct l as [|x l]; [reflexivity|]. cbn [map cross_left]. rewrite positive_scale, first_change_scale by exact H. reflexivity.
  - unfold cross_right. rewrite <- map_rev. destruct (rev l) as [|x m]; [reflexivity|]. cbn [map]. rewrite positive_scale, first_change_scale, map_length by exact H. reflexivity.
Qed.

(** Multiplying a record by a positive factor multiplies the corrected record. *)
Theorem C81_scales : forall s f dt c r, first_step s = Ok dt -> 0 < dt -> 0 < c -> baseline butter s f = Ok r ->
  exists r', baseline butter (with_vals s (map (Rmult c) (vals s))) f = Ok r' /\ times r' = times r /\ vals r' = map (Rmult c) (vals r).
Proof.
  intros s f dt c r F Hd Hc Er.
  assert (WS : with_vals s (map (Rmult c) (vals s)) = sc c s). { apply signal_ext; [rewrite P_motion.times_with_vals, sc_times by (rewrite map_length; apply P_motion.vals_length); reflexivity|rewrite P_motion.vals_with_vals, sc_vals by (rewrite map_length; apply P_motion.vals_length); reflexivity]. }
  rewrite WS. destruct (core_errors s f) as (X1 & X2 & X3).
  destruct (Nat.lt_ge_cases (length s) 5) as [HN|HN]; [unfold baseline in Er; rewrite X1 in Er by exact HN; discriminate|].
  destruct (Req_dec f 0) as [Hf|Hf]; [unfold baseline in Er; rewrite X2 in Er by assumption; discriminate|].
  destruct (Rlt_le_dec (2 * dt * f) 1) as [Hf1|Hf1]; [|unfold baseline in Er; rewrite (X3 dt) in Er by assumption; discriminate].
  assert (F' : first_step (sc c s) = Ok dt) by (rewrite <- F; unfold first_step; rewrite sc_times; reflexivity).
  destruct (core_spec s f dt F Hd HN Hf Hf1) as (y & Ey & Ly & V). destruct (core_spec (sc c s) f dt F' Hd ltac:(rewrite sc_length; exact HN) Hf Hf1) as (y' & Ey' & Ly' & V').
  rewrite sc_length in *. rewrite sc_vals, pre_removed_scale in V' by (rewrite P_motion.vals_length; exact HN). set (a := pre_removed (vals s)) in *. destruct (cross_scale c a Hc) as [C1 C2]. rewrite C1, C2 in V'.
  assert (EY : y' = map (Rmult c) y).
  { apply (list_ext 0); [rewrite map_length; congruence|]. intros k Hk. rewrite mul_nth_c, V', V by congruence. destruct (Nat.leb k (cross_left a)); [ring|].
    assert (SL : slice (cross_left a) (cross_right a + 1) (map (Rmult c) a) = map (Rmult c) (slice (cross_left a) (cross_right a + 1) a)) by (unfold slice; rewrite skipn_map, firstn_map; reflexivity).
    assert (RP : forall m, repeat 0 m = map (Rmult c) (repeat 0 m)) by (induction m as [|m IH]; cbn [repeat map]; [reflexivity|rewrite <- IH; f_equal; ring]).
    rewrite SL. rewrite (RP (pad_count dt f (cross_left a))) at 1. rewrite <- map_app, sosfilt_scale, mul_nth_c. reflexivity. }
  destruct (baseline_steps s f y ltac:(lia) Ey Ly) as (v & u & v2 & r0 & E1 & E2 & E3 & Er0 & _). rewrite Er in Er0. injection Er0 as <-.
  exists (sc c r). split; [|split; [apply sc_times|apply sc_vals]]. unfold baseline. rewrite Ey'. cbn [bind].
  assert (W2 : with_vals (sc c s) y' = sc c (with_vals s y)). { rewrite EY. apply signal_ext; [rewrite sc_times, !P_motion.times_with_vals, sc_times by (rewrite ?map_length, ?sc_length; exact Ly); reflexivity|]. rewrite sc_vals, !P_motion.vals_with_vals by (rewrite ?map_length, ?sc_length; exact Ly). reflexivity. }
  rewrite W2, (num_int_sc c _ _ _ E1). cbn [bind snd]. rewrite trend_sc, (num_diff_sc c _ _ E2). cbn [bind]. apply num_diff_sc, E3.
Qed.

(** The filtered record lags by one sample: the sample at the first zero crossing (index
    i) enters the corrected record at index i + 1 (finding). *)
Theorem C81_one_sample_late : forall s f dt, first_step s = Ok dt -> 0 < dt -> (5 <= length s)%nat -> f < 0 ->
  let a := pre_removed (vals s) in
  exists y, baseline_core butter s f = Ok y /\ forall k, (k < length s)%nat ->
    nth k y 0 = if Nat.leb (S (cross_left a)) k && Nat.leb k (S (cross_right a)) then nth (k - 1) a 0 else 0.
Proof.
  intros s f dt F Hd HN Hf. assert (DF : 0 < dt * - f) by (apply Rmult_lt_0_compat; lra). destruct (core_spec s f dt F Hd HN ltac:(lra) ltac:(lra)) as (y & Ey & Ly & V). exists y. split; [exact Ey|]. intros k Hk. rewrite V by exact Hk. set (a := pre_removed (vals s)) in *. set (cl := cross_left a) in *. set (cr := cross_right a) in *.
  assert (La : length a = length s) by (unfold a, pre_removed; rewrite map_length; apply P_motion.vals_length).
  unfold cascade. rewrite (proj2 (Rltb_true f 0)) by exact Hf. cbn [sosfilt fold_left]. unfold sosfilt. cbn [fold_left]. destruct (Nat.leb_spec k cl).
  - destruct (Nat.leb_spec (S cl) k); [lia|reflexivity].
  - destruct (Nat.leb_spec (S cl) k); [|lia]. cbn [andb]. set (sl := slice cl (cr + 1) a). assert (LS : length sl = Nat.min (cr + 1 - cl) (length a - cl)) by apply slice_length. destruct (Nat.leb_spec k (S cr)).
    + rewrite app_nth1 by lia. unfold sl. rewrite slice_nth by lia. f_equal. lia.
    + rewrite app_nth2 by lia. apply nth_repeat.
Qed.
End C81.

(** A concrete case: a step, corrected to nothing, and a longer record that is kept. *)
Definition step_record : signal := [(0, 0); (1, 0); (2, 0); (3, 0); (4, 0); (5, -1)].
Example C81_instance : first_step step_record = Ok (1 - 0) /\ (5 <= length step_record)%nat /\ evenly_spaced step_record /\
  exists r, baseline butter1 step_record (1/10) = Ok r /\ nth 5 (vals r) 0 = 0.
Proof.
  split; [reflexivity|]. split; [cbn; lia|]. split.
  { intros k Hk. cbn in Hk. unfold step_of, step_record. do 5 (destruct k as [|k]; [cbn; lra|]). lia. }
  destruct (C81_one_crossing_vanishes butter1 step_record (1/10) (1 - 0) 5 true) as (r & E & _ & _ & Z); [reflexivity|lra|cbn; lia|lra|lra|cbn; lia| | |exists r; split; [exact E|apply Z]].
  - intros i Hi. split; [reflexivity|]. intros _. unfold step_record, pre_removed. cbn [vals map snd nth]. do 5 (destruct i as [|i]; [cbn; lra|]). lia.
  - intros i Hi. cbn in Hi. assert (i = 5%nat) by lia. subst i. unfold step_record, pre_removed. cbn [vals map snd nth]. split; [intros Q; exfalso; lra|discriminate].
Qed.
