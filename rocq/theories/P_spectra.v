(** Lemmas about the oscillator recursion and the pool. *)
From Coq Require Import Reals List Bool ZArith Lia Lra Psatz.
From Coquelicot Require Import Coquelicot.
From Coq Require Import List.
From Verif Require Import Base M_generic M_motion M_soil M_interp M_vs_profile P_vs_profile M_pool M_spectra.
Import ListNotations.
Open Scope R_scope.

(** ** Pool *)
Lemma deliver_length {A B} (f : A -> B) tasks slots i : length (deliver f tasks slots i) = length slots.
Proof. unfold deliver. destruct nth_error; [apply set_nth_length|reflexivity]. Qed.

Lemma pool_fold {A B} (f : A -> B) tasks order : forall slots, length slots = length tasks ->
  forall i, nth i (fold_left (deliver f tasks) order slots) None
    = if in_dec Nat.eq_dec i order then option_map f (nth_error tasks i) else nth i slots None.
Proof.
  induction order as [|j order IH]; intros slots HL i; cbn [fold_left].
  - destruct in_dec as [H|]; [destruct H|reflexivity].
  - rewrite IH by (rewrite deliver_length; exact HL).
    destruct (in_dec Nat.eq_dec i order) as [H1|H1];
      destruct (in_dec Nat.eq_dec i (j :: order)) as [H2|H2]; try reflexivity.
    + exfalso. apply H2. right; exact H1.
    + destruct H2 as [->|H2]; [|contradiction]. unfold deliver.
      destruct (nth_error tasks i) as [x|] eqn:E; cbn [option_map].
      * apply set_nth_same. rewrite HL. apply nth_error_Some. congruence.
      * apply nth_overflow. rewrite HL. apply nth_error_None. exact E.
    + unfold deliver. destruct (nth_error tasks j); [|reflexivity]. apply set_nth_other.
      intros ->. apply H2. left; reflexivity.
Qed.

Lemma pool_map_serial {A B} (f : A -> B) tasks order : schedule (length tasks) order ->
  pool_map f tasks order = map (fun x => Some (f x)) tasks.
Proof.
  intros [_ H]. unfold pool_map.
  assert (HL : forall order slots, length (fold_left (deliver f tasks) order slots) = length slots).
  { clear. induction order; intros; cbn; [reflexivity|]. rewrite IHorder, deliver_length. reflexivity. }
  apply nth_ext with (d := None) (d' := None).
  - rewrite HL, !map_length. reflexivity.
  - intros i Hi. rewrite HL, map_length in Hi. rewrite pool_fold by (rewrite map_length; reflexivity).
    destruct in_dec as [_|Hn]; [|exfalso; apply Hn, H, Hi].
    destruct (nth_error tasks i) as [x|] eqn:E; [|apply nth_error_None in E; lia].
    cbn [option_map]. symmetry. apply nth_error_nth. rewrite nth_error_map, E. reflexivity.
Qed.

(** ** Every k-th element *)
Lemma every_1 {A} (l : list A) : every 1 l = l.
Proof. unfold every. induction l; cbn; [reflexivity|]. f_equal. exact IHl. Qed.
Lemma every_map {A B} (f : A -> B) k l : every k (map f l) = map f (every k l).
Proof.
  unfold every. generalize 0%nat. induction l as [|x l IH]; intros j; cbn; [reflexivity|].
  destruct j; cbn; rewrite IH; reflexivity.
Qed.
Lemma every_skip {A} k : forall j (l : list A), every_from k j l = every_from k 0 (skipn j l).
Proof.
  induction j as [|j IH]; intros l; [reflexivity|]. destruct l; cbn [every_from skipn]; [reflexivity|]. apply IH.
Qed.
Lemma nth_error_skipn' {A} : forall j i (l : list A), nth_error (skipn j l) i = nth_error l (j + i).
Proof. induction j as [|j IH]; intros i l; [reflexivity|]. destruct l; cbn; [destruct i; reflexivity|apply IH]. Qed.
Lemma every_nth_error {A} k : (0 < k)%nat -> forall i (l : list A), nth_error (every k l) i = nth_error l (i * k).
Proof.
  intros Hk. unfold every. induction i as [|i IH]; intros l; [destruct l; reflexivity|].
  destruct l as [|x l]; [cbn; destruct (k + i * k)%nat; reflexivity|].
  cbn [every_from nth_error]. rewrite every_skip, IH, nth_error_skipn'.
  replace (S i * k)%nat with (S ((k - 1) + i * k)) by (cbn; lia). reflexivity.
Qed.
Lemma nth_nth_error' {A} (l : list A) i d : nth i l d = match nth_error l i with Some x => x | None => d end.
Proof. revert i; induction l; intros [|i]; cbn; auto. Qed.
Lemma every_nth {A} k (d : A) : (0 < k)%nat -> forall i l, nth i (every k l) d = nth (i * k) l d.
Proof.
  intros Hk i l. rewrite !nth_nth_error'. rewrite every_nth_error by auto. reflexivity.
Qed.
Lemma every_lt {A} k : (0 < k)%nat -> forall i (l : list A), (i < length (every k l) <-> i * k < length l)%nat.
Proof. intros Hk i l. rewrite <- !nth_error_Some, every_nth_error by auto. reflexivity. Qed.

(** ** The recursion *)
Lemma march_length c : forall a s, length (march c s a) = length a.
Proof.
  induction a as [|a0 a IH]; intros s; [reflexivity|]. cbn [march length]. f_equal.
  destruct a as [|a1 a]; [reflexivity|]. apply IH.
Qed.
Lemma march_0 c a s : (0 < length a)%nat -> nth 0 (march c s a) (0, 0) = s.
Proof. destruct a; cbn; [lia|reflexivity]. Qed.
Lemma march_S c : forall k a s, (S k < length a)%nat ->
  nth (S k) (march c s a) (0, 0) = advance c (nth k (march c s a) (0, 0)) (nth k a 0) (nth (S k) a 0).
Proof.
  induction k as [|k IH]; intros a s H.
  - destruct a as [|a0 [|a1 a]]; cbn in H; try lia. cbn [march nth]. reflexivity.
  - destruct a as [|a0 [|a1 a]]; cbn in H; try lia.
    change (nth (S (S k)) (march c s (a0 :: a1 :: a)) (0, 0))
      with (nth (S k) (march c (advance c s a0 a1) (a1 :: a)) (0, 0)).
    rewrite IH by (cbn; lia). reflexivity.
Qed.

(** Samples of the recursion. *)
Definition uk (c : coef) (a : list R) (k : nat) : R := fst (nth k (march c (0, 0) a) (0, 0)).
Definition vk (c : coef) (a : list R) (k : nat) : R := snd (nth k (march c (0, 0) a) (0, 0)).

(** ** Largest absolute value *)
Lemma max_abs_nonneg l : 0 <= max_abs l.
Proof. induction l; cbn; [lra|]. eapply Rle_trans; [exact IHl|]. apply Rmax_r. Qed.
Lemma max_abs_ge l x : In x l -> Rabs x <= max_abs l.
Proof.
  induction l as [|y l IH]; cbn; [tauto|]. intros [->|H]; [apply Rmax_l|].
  eapply Rle_trans; [apply IH, H|]. apply Rmax_r.
Qed.
Lemma max_abs_in l : l <> [] -> exists x, In x l /\ max_abs l = Rabs x.
Proof.
  induction l as [|y l IH]; [congruence|]. intros _. destruct l as [|z l].
  - exists y. split; [left; reflexivity|]. cbn. rewrite Rmax_left; [reflexivity|apply Rabs_pos].
  - destruct IH as (x & Hx & E); [discriminate|]. change (max_abs (y :: z :: l)) with (Rmax (Rabs y) (max_abs (z :: l))).
    unfold Rmax. destruct Rle_dec as [Hle|Hle].
    + exists x. split; [right; exact Hx|exact E].
    + exists y. split; [left; reflexivity|reflexivity].
Qed.
Lemma max_abs_le l m : 0 <= m -> (forall x, In x l -> Rabs x <= m) -> max_abs l <= m.
Proof.
  intros Hm H. induction l as [|y l IH]; cbn; [exact Hm|]. apply Rmax_lub.
  - apply H. left; reflexivity.
  - apply IH. intros x Hx. apply H. right; exact Hx.
Qed.
Lemma max_abs_scal c l : max_abs (map (fun x => c * x) l) = Rabs c * max_abs l.
Proof.
  induction l as [|y l IH]; cbn; [lra|]. rewrite Rabs_mult. unfold max_abs in IH. rewrite IH.
  rewrite RmaxRmult by apply Rabs_pos. reflexivity.
Qed.

(** ** The recursion is linear *)
Lemma advance_scal c x s a0 a1 : advance c (x * fst s, x * snd s) (x * a0) (x * a1)
  = (x * fst (advance c s a0 a1), x * snd (advance c s a0 a1)).
Proof. unfold advance; cbn [fst snd]. f_equal; ring. Qed.
Lemma march_scal c x : forall a s, march c (x * fst s, x * snd s) (map (fun y => x * y) a)
  = map (fun p => (x * fst p, x * snd p)) (march c s a).
Proof.
  induction a as [|a0 a IH]; intros s; [reflexivity|]. cbn [march map]. f_equal.
  destruct a as [|a1 a]; [reflexivity|]. cbn [map]. cbn [map] in IH.
  rewrite advance_scal. rewrite IH. reflexivity.
Qed.

(** ** Exactness over one step *)
(** The response to the ground acceleration [a0 + (a1 - a0) * t / dt] from the state
    [(u0, v0)]. *)
Section Step.
Variables w xi dt u0 v0 a0 a1 : R.
Hypothesis Hw : 0 < w.
Hypothesis Hxi : 0 <= xi < 1.
Hypothesis Hdt : 0 < dt.
Let sq := sqrt (1 - xi * xi).
Let wd := w * sq.
Let sl := (a1 - a0) / dt.

Lemma sq_pos : 0 < sq.
Proof. apply sqrt_lt_R0. nra. Qed.
Lemma sq_sq : sq * sq = 1 - xi * xi.
Proof. apply sqrt_sqrt. nra. Qed.

Definition part (t : R) : R := - (a0 + sl * t) / (w * w) + 2 * xi * sl / (w * w * w).
Definition K1 : R := u0 - part 0.
Definition K2 : R := v0 + sl / (w * w).
Definition usol (t : R) : R :=
  exp (- xi * w * t) * (K1 * (xi / sq * sin (wd * t) + cos (wd * t)) + K2 * (1 / wd * sin (wd * t))) + part t.
Definition vsol (t : R) : R :=
  exp (- xi * w * t) * (K1 * (- (w / sq * sin (wd * t))) + K2 * (cos (wd * t) - xi / sq * sin (wd * t))) - sl / (w * w).

Lemma usol_0 : usol 0 = u0.
Proof.
  unfold usol. rewrite !Rmult_0_r, exp_0, sin_0, cos_0. unfold K1. ring.
Qed.
Lemma vsol_0 : vsol 0 = v0.
Proof.
  unfold vsol. rewrite !Rmult_0_r, exp_0, sin_0, cos_0. unfold K2. ring.
Qed.
Lemma usol_derive t : is_derive usol t (vsol t).
Proof.
  pose proof sq_pos as Hs. pose proof sq_sq as Hss.
  unfold usol, part. auto_derive; [exact I|]. unfold vsol. 
  set (e := exp _). set (sn := sin _). set (cs := cos _). unfold wd.
  field_simplify_eq; [|split; lra]. 
  replace (sq ^ 2) with (1 - xi * xi) by (rewrite <- Hss; ring). ring.
Qed.
Lemma vsol_derive t : is_derive vsol t (- (2 * xi * w * vsol t + w * w * usol t + (a0 + sl * t))).
Proof.
  pose proof sq_pos as Hs. pose proof sq_sq as Hss.
  unfold vsol at 1. auto_derive; [exact I|]. unfold vsol, usol, part.
  set (e := exp _). set (sn := sin _). set (cs := cos _). unfold wd.
  field_simplify_eq; [|split; lra].
  replace (sq ^ 2) with (1 - xi * xi) by (rewrite <- Hss; ring). ring.
Qed.
Lemma usol_end : usol dt = fst (advance (chopra w xi dt) (u0, v0) a0 a1).
Proof.
  pose proof sq_pos as Hs. pose proof sq_sq as Hss.
  unfold advance, chopra; cbn [cA cB cC cD fst snd]. fold sq. fold wd. unfold usol, K1, K2, part, sl.
  set (e := exp _). set (sn := sin _). set (cs := cos _). unfold wd.
  field_simplify_eq; [|repeat split; lra].
  repeat match goal with |- context [sq ^ S (S ?n)] =>
    replace (sq ^ S (S n)) with ((1 - xi * xi) * sq ^ n) by (rewrite <- Hss; cbn [pow]; ring) end. ring.
Qed.
Lemma vsol_end : vsol dt = snd (advance (chopra w xi dt) (u0, v0) a0 a1).
Proof.
  pose proof sq_pos as Hs. pose proof sq_sq as Hss.
  unfold advance, chopra; cbn [cA' cB' cC' cD' fst snd]. fold sq. fold wd. unfold vsol, K1, K2, part, sl.
  set (e := exp _). set (sn := sin _). set (cs := cos _). unfold wd.
  field_simplify_eq; [|repeat split; lra].
  repeat match goal with |- context [sq ^ S (S ?n)] =>
    replace (sq ^ S (S n)) with ((1 - xi * xi) * sq ^ n) by (rewrite <- Hss; cbn [pow]; ring) end. ring.
Qed.
End Step.

(** ** Uniqueness *)
(** [u], [v] satisfy the equation of motion for the ground acceleration [p] inside
    [(lo, hi)] and are continuous up to the ends. *)
Definition moves (w xi : R) (p : R -> R) (lo hi : R) (u v : R -> R) : Prop :=
  (forall t, lo <= t <= hi -> continuity_pt u t /\ continuity_pt v t) /\
  (forall t, lo < t < hi -> is_derive u t (v t) /\
     is_derive v t (- (2 * xi * w * v t + w * w * u t + p t))).

Lemma moves_unique w xi p lo hi u1 v1 u2 v2 : 0 < w -> 0 <= xi -> lo < hi ->
  moves w xi p lo hi u1 v1 -> moves w xi p lo hi u2 v2 -> u1 lo = u2 lo -> v1 lo = v2 lo ->
  u1 hi = u2 hi /\ v1 hi = v2 hi.
Proof.
  intros Hw Hxi Hlt [C1 D1] [C2 D2] Eu Ev.
  set (E := fun t => (v1 t - v2 t) * (v1 t - v2 t) + w * w * ((u1 t - u2 t) * (u1 t - u2 t))).
  set (dE := fun t => - (4 * xi * w) * ((v1 t - v2 t) * (v1 t - v2 t))).
  destruct (MVT_gen E lo hi dE) as (c & _ & HM).
  - rewrite Rmin_left, Rmax_right by lra. intros t Ht.
    destruct (D1 t Ht) as [A1 B1]. destruct (D2 t Ht) as [A2 B2]. unfold E.
    auto_derive.
    + repeat split; eexists; eassumption.
    + apply is_derive_unique in A1, A2, B1, B2.
      change (Derive (fun x : R => u1 x) t) with (Derive u1 t). change (Derive (fun x : R => v1 x) t) with (Derive v1 t).
      change (Derive (fun x : R => u2 x) t) with (Derive u2 t). change (Derive (fun x : R => v2 x) t) with (Derive v2 t).
      rewrite A1, A2, B1, B2.
      unfold dE. ring.
  - rewrite Rmin_left, Rmax_right by lra. intros t Ht. destruct (C1 t Ht), (C2 t Ht). unfold E.
    apply (continuity_pt_plus (fun t => (v1 t - v2 t) * (v1 t - v2 t))
             (fun t => w * w * ((u1 t - u2 t) * (u1 t - u2 t)))).
    + apply (continuity_pt_mult (fun t => v1 t - v2 t) (fun t => v1 t - v2 t)); apply continuity_pt_minus; auto.
    + apply (continuity_pt_scal (fun t => (u1 t - u2 t) * (u1 t - u2 t)) (w * w)).
      apply (continuity_pt_mult (fun t => u1 t - u2 t) (fun t => u1 t - u2 t)); apply continuity_pt_minus; auto.
  - assert (E0 : E lo = 0) by (unfold E; rewrite Eu, Ev; ring).
    assert (Hd : dE c <= 0).
    { unfold dE. pose proof (Rle_0_sqr (v1 c - v2 c)) as Hq. unfold Rsqr in Hq.
      assert (0 <= 4 * xi * w) by nra. nra. }
    assert (HE : E hi <= 0) by (rewrite E0 in HM; nra).
    unfold E in HE. pose proof (Rle_0_sqr (v1 hi - v2 hi)) as Hq1. pose proof (Rle_0_sqr (u1 hi - u2 hi)) as Hq2.
    unfold Rsqr in Hq1, Hq2. assert (Hww : 0 < w * w) by nra.
    assert (Hq3 : 0 <= w * w * ((u1 hi - u2 hi) * (u1 hi - u2 hi))) by (apply Rmult_le_pos; lra).
    assert (Z1 : (v1 hi - v2 hi) * (v1 hi - v2 hi) = 0) by lra.
    assert (Z2 : w * w * ((u1 hi - u2 hi) * (u1 hi - u2 hi)) = 0) by lra.
    apply Rmult_integral in Z2 as [Z2|Z2]; [lra|].
    apply Rmult_integral in Z1 as [Z1|Z1]; apply Rmult_integral in Z2 as [Z2|Z2]; split; lra.
Qed.

Lemma derive_cont (f : R -> R) t l : is_derive f t l -> continuity_pt f t.
Proof.
  intros H. apply continuity_pt_filterlim. apply (ex_derive_continuous f t). eexists; exact H.
Qed.

(** The closed form, started at time [lo]. *)
Lemma sol_moves w xi dt u0 v0 a0 a1 lo : 0 < w -> 0 <= xi < 1 -> 0 < dt ->
  moves w xi (fun t => a0 + (a1 - a0) * ((t - lo) / dt)) lo (lo + dt)
    (fun t => usol w xi dt u0 v0 a0 a1 (t - lo)) (fun t => vsol w xi dt u0 v0 a0 a1 (t - lo)).
Proof.
  intros Hw Hxi Hdt.
  assert (Hsh : forall (f : R -> R) (t l : R), is_derive f (t - lo) l -> is_derive (fun t : R => f (t - lo)) t l).
  { intros f t l H. replace l with (1 * l) by ring.
    apply (is_derive_comp f (fun t => t - lo)); [exact H|]. auto_derive; [exact I|ring]. }
  assert (HD : forall t, is_derive (fun t => usol w xi dt u0 v0 a0 a1 (t - lo)) t (vsol w xi dt u0 v0 a0 a1 (t - lo)) /\
    is_derive (fun t => vsol w xi dt u0 v0 a0 a1 (t - lo)) t
      (- (2 * xi * w * vsol w xi dt u0 v0 a0 a1 (t - lo) + w * w * usol w xi dt u0 v0 a0 a1 (t - lo)
          + (a0 + (a1 - a0) * ((t - lo) / dt))))).
  { intros t. split; apply Hsh.
    - apply usol_derive; auto.
    - replace (a0 + (a1 - a0) * ((t - lo) / dt)) with (a0 + (a1 - a0) / dt * (t - lo)) by (field; lra).
      apply vsol_derive; auto. }
  split.
  - intros t _. destruct (HD t). split; eapply derive_cont; eassumption.
  - intros t _. apply HD.
Qed.

(** One step of the recursion is exact. *)
Lemma step_exact w xi dt u v a0 a1 lo : 0 < w -> 0 <= xi < 1 -> 0 < dt ->
  moves w xi (fun t => a0 + (a1 - a0) * ((t - lo) / dt)) lo (lo + dt) u v ->
  (u (lo + dt), v (lo + dt)) = advance (chopra w xi dt) (u lo, v lo) a0 a1.
Proof.
  intros Hw Hxi Hdt HM.
  destruct (moves_unique w xi _ lo (lo + dt) u v _ _ Hw (proj1 Hxi) ltac:(lra) HM
              (sol_moves w xi dt (u lo) (v lo) a0 a1 lo Hw Hxi Hdt)) as [E1 E2].
  - rewrite Rminus_eq_0, usol_0. reflexivity.
  - rewrite Rminus_eq_0, vsol_0. reflexivity.
  - replace (lo + dt - lo) with dt in E1, E2 by ring. rewrite usol_end in E1 by auto. rewrite vsol_end in E2 by auto.
    rewrite E1, E2. symmetry. apply surjective_pairing.
Qed.

(** ** Gluing *)
Lemma glue_cont f g c : continuity_pt f c -> continuity_pt g c -> f c = g c ->
  continuity_pt (fun t => if Rle_dec t c then f t else g t) c.
Proof.
  intros Hf Hg E eps Heps. destruct (Hf eps Heps) as (d1 & H1 & F1). destruct (Hg eps Heps) as (d2 & H2 & F2).
  exists (Rmin d1 d2). split; [apply Rmin_pos; auto|]. intros x [Hx1 Hx2].
  assert (Hxd : R_dist x c < d1 /\ R_dist x c < d2).
  { cbn in Hx2. split; eapply Rlt_le_trans; try exact Hx2; [apply Rmin_l|apply Rmin_r]. }
  destruct (Rle_dec c c) as [_|n]; [|exfalso; apply n; lra].
  destruct (Rle_dec x c).
  - apply F1. split; [exact Hx1|apply Hxd].
  - rewrite E. apply F2. split; [exact Hx1|apply Hxd].
Qed.

Lemma cont_ext (f g : R -> R) t : locally t (fun x => f x = g x) -> continuity_pt f t -> continuity_pt g t.
Proof.
  intros L H. apply continuity_pt_filterlim. rewrite <- (locally_singleton _ _ L).
  eapply filterlim_ext_loc; [exact L|]. apply continuity_pt_filterlim, H.
Qed.
Lemma loc_lt t c : t < c -> locally t (fun x => x <= c).
Proof.
  intros H. assert (Hp : 0 < c - t) by lra. exists (mkposreal _ Hp). intros y Hy. cbn in Hy.
  unfold ball in Hy; cbn in Hy. unfold AbsRing_ball, abs, minus, plus, opp in Hy; cbn in Hy.
  apply Rabs_def2 in Hy. lra.
Qed.
Lemma loc_gt t c : c < t -> locally t (fun x => ~ x <= c).
Proof.
  intros H. assert (Hp : 0 < t - c) by lra. exists (mkposreal _ Hp). intros y Hy. cbn in Hy.
  unfold ball in Hy; cbn in Hy. unfold AbsRing_ball, abs, minus, plus, opp in Hy; cbn in Hy.
  apply Rabs_def2 in Hy. lra.
Qed.
