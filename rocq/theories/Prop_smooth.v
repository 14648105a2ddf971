(** Theorems about smoothing: C35. *)
From Coq Require Import Reals List Bool ZArith Lia Lra Psatz.
From Verif Require Import Base M_generic M_motion M_interp M_soil M_signal P_soil P_interp Prop_fourier Prop_filter.
Import ListNotations.
Open Scope R_scope.

(** ** Windows *)
Lemma win_nonneg w L n : (2 <= L)%nat -> (n < L)%nat -> 0 <= win_at w L n.
Proof.
  intros HL Hn. unfold win_at. pose proof (COS_bound (2 * PI * INR n / INR (L - 1))) as B. set (c := cos (2 * PI * INR n / INR (L - 1))) in *. destruct w; try lra.
  - assert (HD : 0 < INR (L - 1)) by (apply lt_0_INR; lia). assert (0 <= INR n <= INR (L - 1)) by (split; [apply pos_INR|apply le_INR; lia]).
    apply Rmult_le_pos; [apply Rlt_le, Rdiv_lt_0_compat; lra|]. unfold Rabs. destruct (Rcase_abs _); lra.
  - replace (4 * PI * INR n / INR (L - 1)) with (2 * (2 * PI * INR n / INR (L - 1))) by (unfold Rdiv; ring). rewrite cos_2a_cos. fold c.
    replace (42 / 100 - 1 / 2 * c + 8 / 100 * (2 * c * c - 1)) with ((1 - c) * (34 / 100 - 16 / 100 * c)) by field. apply Rmult_le_pos; lra.
Qed.
Lemma win_pos w L : w <> BadWindow -> (3 <= L)%nat -> 0 < win_at w L 1.
Proof.
  intros Hw HL. unfold win_at. assert (HD : 2 <= INR (L - 1)) by (change 2 with (INR 2); apply le_INR; lia).
  assert (C1 : -1 <= cos (2 * PI * INR 1 / INR (L - 1)) < 1).
  { split; [apply COS_bound|]. set (y := PI / INR (L - 1)). replace (2 * PI * INR 1 / INR (L - 1)) with (2 * y) by (unfold y; cbn [INR]; field; lra). rewrite cos_2a_sin.
    assert (0 < y <= PI / 2). { pose proof PI_RGT_0. unfold y. split; [apply Rdiv_lt_0_compat; lra|]. unfold Rdiv. apply Rmult_le_compat_l; [lra|]. apply Rinv_le_contravar; lra. }
    pose proof PI_RGT_0. assert (0 < sin y) by (apply sin_gt_0; lra). nra. }
  set (c := cos (2 * PI * INR 1 / INR (L - 1))) in *. destruct w; try lra; [| |congruence].
  - apply Rmult_lt_0_compat; [apply Rdiv_lt_0_compat; lra|]. cbn [INR]. unfold Rabs. destruct (Rcase_abs _); lra.
  - replace (4 * PI * INR 1 / INR (L - 1)) with (2 * (2 * PI * INR 1 / INR (L - 1))) by (unfold Rdiv; ring). rewrite cos_2a_cos. fold c.
    replace (42 / 100 - 1 / 2 * c + 8 / 100 * (2 * c * c - 1)) with ((1 - c) * (34 / 100 - 16 / 100 * c)) by field. apply Rmult_lt_0_compat; lra.
Qed.

(** Sums over 0 .. n-1. *)
Definition sumn (n : nat) (f : nat -> R) : R := rsum (map f (seq 0 n)).
Lemma sumn_ext n f g : (forall j, (j < n)%nat -> f j = g j) -> sumn n f = sumn n g.
Proof. intros H. unfold sumn. f_equal. apply map_ext_in. intros j Hj. apply in_seq in Hj. apply H. lia. Qed.
Lemma sumn_S n f : sumn (S n) f = sumn n f + f n.
Proof. unfold sumn. rewrite seq_S, map_app, rsum_app. cbn. ring. Qed.
Lemma sumn_plus n f g : sumn n (fun j => f j + g j) = sumn n f + sumn n g.
Proof. induction n as [|n IH]; [cbn; ring|]. rewrite !sumn_S, IH. ring. Qed.
Lemma sumn_scal n c f : sumn n (fun j => c * f j) = c * sumn n f.
Proof. induction n as [|n IH]; [cbn; ring|]. rewrite !sumn_S, IH. ring. Qed.
Lemma sumn_le n f g : (forall j, (j < n)%nat -> f j <= g j) -> sumn n f <= sumn n g.
Proof. induction n as [|n IH]; intros H; [cbn; lra|]. rewrite !sumn_S. pose proof (H n ltac:(lia)). assert (sumn n f <= sumn n g) by (apply IH; intros; apply H; lia). lra. Qed.
Lemma sumn_const n c : sumn n (fun _ => c) = INR n * c.
Proof. induction n as [|n IH]; [cbn; ring|]. rewrite sumn_S, IH, S_INR. ring. Qed.

Definition total (w : window) (L : nat) : R := sumn L (win_at w L).
Lemma total_pos w L : w <> BadWindow -> (3 <= L)%nat -> 0 < total w L.
Proof.
  intros Hw HL. unfold total. destruct L as [|[|L]]; try lia. pose proof (win_pos w (S (S L)) Hw HL) as P.
  assert (sumn (S (S L)) (fun j => if Nat.eqb j 1 then win_at w (S (S L)) 1 else 0) <= sumn (S (S L)) (win_at w (S (S L)))).
  { apply sumn_le. intros j Hj. destruct (Nat.eqb_spec j 1) as [-> |]; [lra|apply win_nonneg; lia]. }
  assert (E : forall n, sumn (S (S n)) (fun j => if Nat.eqb j 1 then win_at w (S (S L)) 1 else 0) = win_at w (S (S L)) 1).
  { induction n as [|n IH]; [cbn; ring|]. rewrite sumn_S, IH. destruct (Nat.eqb_spec (S (S n)) 1); [lia|ring]. }
  rewrite E in H. lra.
Qed.
Lemma win_nth w L j : (j < L)%nat -> nth j (win w L) 0 = win_at w L j.
Proof. intros H. unfold win. rewrite nth_indep with (d' := win_at w L 0) by (rewrite map_length, seq_length; exact H). rewrite map_nth, seq_nth by exact H. reflexivity. Qed.
Lemma normed_nth w L j : (j < L)%nat -> nth j (normed (win w L)) 0 = win_at w L j / total w L.
Proof.
  intros H. unfold normed. set (f := fun a => a / rsum (win w L)). rewrite nth_indep with (d' := f 0) by (rewrite map_length; unfold win; rewrite map_length, seq_length; exact H). rewrite map_nth. unfold f. rewrite win_nth by exact H. reflexivity.
Qed.
Lemma normed_length w L : length (normed (win w L)) = L.
Proof. unfold normed, win. rewrite !map_length, seq_length. reflexivity. Qed.

(** ** C35 smoothing in linear space *)

Theorem C35_lin_accepts : forall x L w,
  (exists y, lin_smooth x L w = Ok y) <-> (L <= length x)%nat /\ ((L < 3)%nat \/ w <> BadWindow).
Proof.
  intros x L w. unfold lin_smooth. destruct (Nat.ltb_spec (length x) L); [split; [intros (y & E); discriminate|lia]|]. destruct (Nat.ltb_spec L 3).
  - split; [auto|intros _; eauto].
  - destruct w; [| | | | |split; [intros (y & E); discriminate|intros [_ [Q|Q]]; [lia|congruence]]];
      (split; [intros _; split; [lia|right; discriminate]|intros _; eauto]).
Qed.

(** The value at k: weighted sum of the samples present in the window around k. *)
Definition available (w : window) (L : nat) (x : list R) (k : nat) : R :=
  sumn L (fun j => if Nat.leb j (k + (L - 1) / 2) && Nat.ltb (k + (L - 1) / 2 - j) (length x) then win_at w L j * nth (k + (L - 1) / 2 - j) x 0 else 0).
Lemma smooth_val x L w y : (3 <= L)%nat -> lin_smooth x L w = Ok y -> w <> BadWindow /\ (L <= length x)%nat /\ length y = length x /\
  forall k, (k < length x)%nat -> nth k y 0 = available w L x k / total w L.
Proof.
  intros HL H. assert (HW : w <> BadWindow /\ (L <= length x)%nat) by (destruct (proj1 (C35_lin_accepts x L w) (ex_intro _ y H)) as [Q [Q'|Q']]; [lia|auto]). destruct HW as [HW HX]. split; [exact HW|]. split; [exact HX|].
  unfold lin_smooth in H. rewrite (proj2 (Nat.ltb_ge _ _)) in H by exact HX. rewrite (proj2 (Nat.ltb_ge L 3)) in H by exact HL.
  assert (E : y = conv_same (normed (win w L)) x) by (destruct w; congruence). subst y. clear H. unfold conv_same. split; [rewrite map_length, seq_length; reflexivity|].
  intros k Hk. rewrite nth_indep with (d' := conv_at (normed (win w L)) x 0) by (rewrite map_length, seq_length; exact Hk). rewrite map_nth, seq_nth by exact Hk. cbn [Nat.add]. unfold conv_at. rewrite normed_length.
  pose proof (total_pos w L HW HL). unfold available. unfold Rdiv at 1. rewrite Rmult_comm, <- sumn_scal. apply sumn_ext. intros j Hj.
  destruct (Nat.leb j (k + (L - 1) / 2) && Nat.ltb (k + (L - 1) / 2 - j) (length x)); [|ring]. rewrite normed_nth by exact Hj. unfold Rdiv. ring.
Qed.

Theorem C35_lin_length : forall x L w y, lin_smooth x L w = Ok y -> length y = length x /\ ((L < 3)%nat -> y = x).
Proof.
  intros x L w y H. destruct (Nat.ltb_spec L 3).
  - unfold lin_smooth in H. destruct (Nat.ltb (length x) L); [discriminate|]. rewrite (proj2 (Nat.ltb_lt L 3)) in H by assumption. injection H as <-. auto.
  - destruct (smooth_val x L w y) as (_ & _ & E & _); auto. split; [exact E|lia].
Qed.

Lemma div2_facts L : (1 <= L)%nat -> ((L - 1) / 2 + L / 2 = L - 1 /\ (L - 1) / 2 <= L / 2 <= (L - 1) / 2 + 1)%nat.
Proof.
  intros H. pose proof (Nat.div_mod (L - 1) 2 ltac:(lia)). pose proof (Nat.div_mod L 2 ltac:(lia)). pose proof (Nat.mod_upper_bound (L - 1) 2 ltac:(lia)). pose proof (Nat.mod_upper_bound L 2 ltac:(lia)). lia.
Qed.

(** Away from the ends each value is the weighted mean of its window, hence between
    the least and the greatest sample of the window. *)
Theorem C35_lin_interior : forall x L w y k, (3 <= L)%nat -> lin_smooth x L w = Ok y -> (L / 2 <= k)%nat -> (k + (L - 1) / 2 < length x)%nat ->
  nth k y 0 * sumn L (win_at w L) = sumn L (fun j => win_at w L j * nth (k + (L - 1) / 2 - j) x 0) /\
  forall lo hi, (forall i, (k - L / 2 <= i <= k + (L - 1) / 2)%nat -> lo <= nth i x 0 <= hi) -> lo <= nth k y 0 <= hi.
Proof.
  intros x L w y k HL H Hk1 Hk2. destruct (smooth_val x L w y HL H) as (HW & HX & Ly & V). pose proof (total_pos w L HW HL) as P. destruct (div2_facts L ltac:(lia)) as [D1 D2].
  rewrite V by lia. assert (A : available w L x k = sumn L (fun j => win_at w L j * nth (k + (L - 1) / 2 - j) x 0)).
  { apply sumn_ext. intros j Hj. rewrite (proj2 (Nat.leb_le _ _)) by lia. rewrite (proj2 (Nat.ltb_lt _ _)) by lia. reflexivity. }
  rewrite A. split; [fold (total w L); field; lra|]. intros lo hi B.
  assert (G : forall c, c * total w L = sumn L (fun j => win_at w L j * c)) by (intros c; unfold total; rewrite <- sumn_scal; apply sumn_ext; intros; ring).
  split; (apply Rmult_le_reg_r with (total w L); [exact P|]); [|]; replace (sumn L (fun j => win_at w L j * nth (k + (L - 1) / 2 - j) x 0) / total w L * total w L) with (sumn L (fun j => win_at w L j * nth (k + (L - 1) / 2 - j) x 0)) by (field; lra);
    rewrite G; apply sumn_le; intros j Hj; (apply Rmult_le_compat_l; [apply win_nonneg; lia|]); apply B; lia.
Qed.

(** Near the ends samples are missing and count as zero: a non-negative record stays
    within its maximum but is pulled towards zero. *)
Theorem C35_lin_bounds : forall x L w y m, (3 <= L)%nat -> lin_smooth x L w = Ok y -> 0 <= m ->
  ((forall i, (i < length x)%nat -> 0 <= nth i x 0 <= m) -> forall k, (k < length x)%nat -> 0 <= nth k y 0 <= m) /\
  ((forall i, (i < length x)%nat -> Rabs (nth i x 0) <= m) -> forall k, (k < length x)%nat -> Rabs (nth k y 0) <= m).
Proof.
  intros x L w y m HL H Hm. destruct (smooth_val x L w y HL H) as (HW & HX & Ly & V). pose proof (total_pos w L HW HL) as P.
  assert (G : forall lo hi k, lo <= 0 <= hi -> (forall i, (i < length x)%nat -> lo <= nth i x 0 <= hi) -> (k < length x)%nat -> lo <= nth k y 0 <= hi).
  { intros lo hi k H0 B Hk. rewrite V by exact Hk. assert (Gc : forall c, c * total w L = sumn L (fun j => win_at w L j * c)) by (intros c; unfold total; rewrite <- sumn_scal; apply sumn_ext; intros; ring).
    split; (apply Rmult_le_reg_r with (total w L); [exact P|]); replace (available w L x k / total w L * total w L) with (available w L x k) by (field; lra); rewrite Gc; apply sumn_le; intros j Hj; pose proof (win_nonneg w L j ltac:(lia) Hj);
      destruct (Nat.leb j (k + (L - 1) / 2) && Nat.ltb (k + (L - 1) / 2 - j) (length x)) eqn:E; try nra; apply andb_true_iff in E; destruct E as [_ E]; apply Nat.ltb_lt in E; (apply Rmult_le_compat_l; [assumption|]); apply B, E. }
  split.
  - intros B k Hk. apply G; [lra|exact B|exact Hk].
  - intros B k Hk. apply Rabs_le. apply G; [lra| |exact Hk]. intros i Hi. specialize (B i Hi). unfold Rabs in B. destruct (Rcase_abs _); lra.
Qed.
Lemma comb_at a b : forall x1 x2 i, length x1 = length x2 -> nth i (lincomb a b x1 x2) 0 = a * nth i x1 0 + b * nth i x2 0.
Proof. unfold lincomb. induction x1 as [|u x1 IH]; intros [|v x2] [|i] H; try discriminate; cbn [combine map nth fst snd]; try ring. apply IH. cbn in H. lia. Qed.
Theorem C35_lin_linear : forall x1 x2 a b L w y1 y2 y, length x1 = length x2 -> lin_smooth x1 L w = Ok y1 -> lin_smooth x2 L w = Ok y2 ->
  lin_smooth (lincomb a b x1 x2) L w = Ok y -> y = lincomb a b y1 y2.
Proof.
  intros x1 x2 a b L w y1 y2 y HX H1 H2 H. destruct (Nat.ltb_spec L 3) as [S|S].
  - destruct (C35_lin_length _ _ _ _ H1) as [_ E1], (C35_lin_length _ _ _ _ H2) as [_ E2], (C35_lin_length _ _ _ _ H) as [_ E]. rewrite E, E1, E2 by exact S. reflexivity.
  - destruct (smooth_val _ _ _ _ S H1) as (_ & _ & L1 & V1), (smooth_val _ _ _ _ S H2) as (_ & _ & L2 & V2), (smooth_val _ _ _ _ S H) as (HW & _ & L0 & V). pose proof (total_pos w L HW S) as P.
    rewrite lincomb_length in L0 by exact HX. apply (list_ext 0); [rewrite lincomb_length; congruence|]. intros k Hk. rewrite comb_at by congruence. rewrite V1, V2, V by (rewrite ?lincomb_length; congruence).
    assert (E : available w L (lincomb a b x1 x2) k = a * available w L x1 k + b * available w L x2 k).
    { unfold available. rewrite <- !sumn_scal, <- sumn_plus. apply sumn_ext. intros j Hj. rewrite lincomb_length by exact HX. rewrite <- HX. destruct (Nat.leb j (k + (L - 1) / 2) && Nat.ltb (k + (L - 1) / 2 - j) (length x1)); [|ring]. rewrite comb_at by exact HX. ring. }
    rewrite E. field. lra.
Qed.

(** A constant record: unchanged inside; with the flat window the k-th value of the
    first half window is the constant times the fraction of the window present. *)
Theorem C35_lin_constant : forall c n L w y k, (3 <= L)%nat -> lin_smooth (repeat c n) L w = Ok y ->
  ((L / 2 <= k)%nat -> (k + (L - 1) / 2 < n)%nat -> nth k y 0 = c) /\
  ((k < L / 2)%nat -> w = Flat -> nth k y 0 = c * (INR (k + (L - 1) / 2 + 1) / INR L) /\ (0 < c -> nth k y 0 < c)).
Proof.
  intros c n L w y k HL H. destruct (smooth_val _ _ _ _ HL H) as (HW & HX & Ly & V). rewrite repeat_length in *. destruct (div2_facts L ltac:(lia)) as [D1 D2]. assert (HH : forall i, (i < n)%nat -> nth i (repeat c n) 0 = c) by (intros i Hi; rewrite nth_indep with (d' := c) by (rewrite repeat_length; exact Hi); apply nth_repeat).
  split.
  - intros K1 K2. destruct (C35_lin_interior _ _ _ _ k HL H K1) as [_ B]; [rewrite repeat_length; exact K2|]. destruct (B c c); [|lra]. intros i Hi. rewrite HH by lia. lra.
  - intros K ->. assert (P : 0 < INR L) by (apply lt_0_INR; lia).
    assert (E : nth k y 0 = c * (INR (k + (L - 1) / 2 + 1) / INR L)).
    { rewrite V by lia. assert (T : total Flat L = INR L) by (unfold total; rewrite (sumn_ext L _ (fun _ => 1)) by reflexivity; rewrite sumn_const; ring). rewrite T.
      assert (G : forall m, (m <= L)%nat -> sumn m (fun j => if Nat.leb j (k + (L - 1) / 2) && Nat.ltb (k + (L - 1) / 2 - j) (length (repeat c n)) then win_at Flat L j * nth (k + (L - 1) / 2 - j) (repeat c n) 0 else 0) = c * INR (Nat.min m (k + (L - 1) / 2 + 1))).
      { induction m as [|m IH]; intros Hm; [cbn; ring|]. rewrite sumn_S, IH by lia. destruct (Nat.leb_spec m (k + (L - 1) / 2)).
        - rewrite repeat_length, (proj2 (Nat.ltb_lt _ _)) by lia. cbn [andb win_at]. rewrite HH by lia. replace (Nat.min m (k + (L - 1) / 2 + 1)) with m by lia. replace (Nat.min (S m) (k + (L - 1) / 2 + 1)) with (S m) by lia. rewrite S_INR. ring.
        - cbn [andb]. replace (Nat.min m (k + (L - 1) / 2 + 1)) with (k + (L - 1) / 2 + 1)%nat by lia. replace (Nat.min (S m) (k + (L - 1) / 2 + 1)) with (k + (L - 1) / 2 + 1)%nat by lia. ring. }
      unfold available. rewrite (G L (le_n L)). replace (Nat.min L (k + (L - 1) / 2 + 1)) with (k + (L - 1) / 2 + 1)%nat by lia. field. lra. }
    split; [exact E|]. intros Hc. rewrite E. assert (INR (k + (L - 1) / 2 + 1) < INR L) by (apply lt_INR; lia). assert (INR (k + (L - 1) / 2 + 1) / INR L < 1) by (apply Rmult_lt_reg_r with (INR L); [exact P|]; unfold Rdiv; rewrite Rmult_assoc, Rinv_l by lra; lra). nra.
Qed.

(** So constants are not fixed points of [lin_smooth] (finding). *)
Theorem C35_lin_constant_refuted : exists x y, lin_smooth x 3 Flat = Ok y /\ (forall v, In v x -> v = 1) /\ nth 0 y 0 <> 1.
Proof.
  destruct (proj2 (C35_lin_accepts (repeat 1 5) 3 Flat)) as [y E]; [rewrite repeat_length; split; [lia|right; discriminate]|]. exists (repeat 1 5), y. split; [exact E|]. split; [apply repeat_spec|].
  destruct (C35_lin_constant 1 5 3 Flat y 0 ltac:(lia) E) as [_ Q]. destruct (Q ltac:(cbn; lia) eq_refl) as [_ Q']. lra.
Qed.

(** ** C35 smoothing in logarithmic space *)
Definition within (lo hi : R) (l : list R) : Prop := Forall (fun v => lo <= v <= hi) l.
Lemma ewa_within lo hi b : 0 <= b <= 1 -> forall xs prev, lo <= prev <= hi -> within lo hi xs -> within lo hi (ewa b prev xs).
Proof.
  intros Hb. induction xs as [|x xs IH]; intros prev Hp Hx; [constructor|]. inversion Hx; subst. cbn [ewa]. assert (lo <= b * prev + (1 - b) * x <= hi) by nra. constructor; [assumption|]. apply IH; assumption.
Qed.
Lemma ewa_length b xs : forall p, length (ewa b p xs) = length xs.
Proof. induction xs as [|x xs IH]; intros p; cbn [ewa length]; [reflexivity|]. rewrite IH. reflexivity. Qed.
Lemma within_firstn lo hi n l : within lo hi l -> within lo hi (firstn n l).
Proof. unfold within. revert n. induction l as [|x l IH]; intros [|n] H; cbn [firstn]; try constructor; inversion H; subst; auto. Qed.
Lemma within_skipn lo hi n l : within lo hi l -> within lo hi (skipn n l).
Proof. unfold within. revert n. induction l as [|x l IH]; intros [|n] H; cbn [skipn]; auto. inversion H; subst; auto. Qed.
Lemma mean_within lo hi l : l <> [] -> within lo hi l -> lo <= mean l <= hi.
Proof.
  intros Hl H. unfold mean. assert (P : 0 < INR (length l)) by (apply lt_0_INR; destruct l; [congruence|cbn; lia]).
  assert (B : INR (length l) * lo <= rsum l <= INR (length l) * hi).
  { clear Hl P. induction H as [|x l Hx H IH]; [cbn; lra|]. cbn [rsum length]. rewrite S_INR. lra. }
  split; (apply Rmult_le_reg_r with (INR (length l)); [exact P|]); unfold Rdiv; rewrite Rmult_assoc, Rinv_l by lra; lra.
Qed.
Lemma head_within lo hi x n b : 0 <= b <= 1 -> (1 <= n <= length x)%nat -> within lo hi x -> within lo hi (head_fix x n b).
Proof.
  intros Hb Hn Hx. unfold head_fix. assert (M : lo <= mean (firstn n x) <= hi). { apply mean_within; [|apply within_firstn, Hx]. intros E. apply (f_equal (@length R)) in E. rewrite firstn_length in E. cbn in E. lia. }
  constructor; [exact M|]. apply ewa_within; [exact Hb|exact M|]. unfold slice. apply within_firstn, within_skipn, Hx.
Qed.
Lemma head_length x n b : (1 <= n <= length x)%nat -> length (head_fix x n b) = n.
Proof. intros H. unfold head_fix. cbn [length]. rewrite ewa_length, slice_length. lia. Qed.
Lemma within_nth lo hi l : within lo hi l <-> forall i, (i < length l)%nat -> lo <= nth i l 0 <= hi.
Proof.
  unfold within. rewrite Forall_forall. split.
  - intros H i Hi. apply H, nth_In, Hi.
  - intros H v Hv. destruct (In_nth l v 0 Hv) as (i & Hi & <-). auto.
Qed.
Lemma within_rev lo hi l : within lo hi l -> within lo hi (rev l).
Proof. unfold within. rewrite !Forall_forall. intros H v Hv. apply H. apply in_rev. exact Hv. Qed.

Lemma fixed_within x L w y lo hi b1 b2 : (3 <= L)%nat -> lin_smooth x L w = Ok y -> 0 <= b1 <= 1 -> 0 <= b2 <= 1 -> within lo hi x ->
  within lo hi (fix_both_ends y x (L / 2) b1 b2) /\ length (fix_both_ends y x (L / 2) b1 b2) = length x.
Proof.
  intros HL H B1 B2 W. destruct (smooth_val _ _ _ _ HL H) as (_ & HX & Ly & _). destruct (div2_facts L ltac:(lia)) as [D1 D2]. assert (HN : (1 <= L / 2 <= length x)%nat) by lia. unfold fix_both_ends. split.
  - apply Forall_app. split; [apply head_within; assumption|]. apply Forall_app. split.
    + apply within_nth. intros i Hi. rewrite slice_length in Hi. rewrite slice_nth by lia. destruct (C35_lin_interior _ _ _ _ (L / 2 + i) HL H) as [_ Q]; [lia|lia|]. apply Q. intros j Hj. apply (proj1 (within_nth lo hi x) W). lia.
    + apply within_rev, head_within; [exact B2|rewrite rev_length; exact HN|apply within_rev, W].
  - rewrite !app_length, rev_length, slice_length, !head_length by (rewrite ?rev_length; exact HN). lia.
Qed.

Lemma log_interp_within f1 f2 n s x lo hi : 0 < f1 < f2 -> (2 <= n)%nat -> length s = n -> np_interp (combine (linspace f1 f2 n) s) (logspace (log10 f1) (log10 f2) n) = Ok x -> within lo hi s -> within lo hi x /\ length x = n.
Proof.
  intros Hf Hn Hs H W. set (pts := combine (linspace f1 f2 n) s) in *. assert (LP : length pts = n) by (unfold pts; rewrite combine_length, linspace_length; lia).
  assert (NP : forall k, (k < n)%nat -> nth k pts (0, 0) = (nth k (linspace f1 f2 n) 0, nth k s 0)) by (intros k Hk; unfold pts; apply combine_nth; rewrite linspace_length; congruence).
  assert (I : incr pts). { intros k Hk. rewrite LP in Hk. rewrite !NP by lia. cbn [fst]. rewrite !linspace_nth' by lia. rewrite S_INR. assert (0 < INR (n - 1)) by (apply lt_0_INR; lia). assert (0 < (f2 - f1) / INR (n - 1)) by (apply Rdiv_lt_0_compat; lra). lra. }
  assert (NE : pts <> []) by (intros E; rewrite E in LP; cbn in LP; lia).
  destruct (np_interp_ok pts (logspace (log10 f1) (log10 f2) n) NE) as (ys & E & LY & V). rewrite E in H. injection H as <-. assert (LG : length (logspace (log10 f1) (log10 f2) n) = n) by (unfold logspace; rewrite map_length; apply linspace_length). rewrite LG in *.
  split; [|exact LY]. apply within_nth. rewrite LY. intros i Hi. destruct (interp1_spec pts (nth i (logspace (log10 f1) (log10 f2) n) 0) I NE) as (y & Ey & Py). rewrite (V i Hi) in Ey. injection Ey as ->.
  apply (pl_bounds _ _ _ _ _ Py). apply Forall_forall. intros p Hp. destruct (In_nth pts p (0, 0) Hp) as (k & Hk & <-). rewrite LP in Hk. rewrite NP by exact Hk. cbn [snd]. apply (proj1 (within_nth lo hi s) W). lia.
Qed.

Lemma log_smooth_body s L w lin f1 f2 n fx b1 b2 : (3 <= L <= length s)%nat -> w <> BadWindow -> log_smooth s L w lin f1 f2 n fx b1 b2 =
  (let! x := (if lin then
       match f1, f2 with
       | Some a, Some b =>
           let m := match n with Some n => n | None => length s end in
           if Nat.eqb m (length s) then np_interp (combine (linspace a b m) s) (logspace (log10 a) (log10 b) m) else Err ValueError
       | _, _ => Err ValueError
       end
     else Ok s) in
   let! y := lin_smooth x L w in
   if fx then
     if Rltb b1 0 || Rltb 1 b1 then Err ValueError else if Rltb b2 0 || Rltb 1 b2 then Err ValueError
     else Ok (fix_both_ends y x (Nat.div L 2) b1 b2)
   else Ok y).
Proof.
  intros [HL HS] HW. unfold log_smooth. rewrite (proj2 (Nat.ltb_ge (length s) L)) by exact HS. rewrite (proj2 (Nat.ltb_ge L 3)) by exact HL. destruct w; try reflexivity. congruence.
Qed.

(** With the ends fixed (the default) every smoothed value stays between the least and
    greatest value of the whole input, so constants are kept; the length is kept. *)
Theorem C35_log_within : forall s L w lin f1 f2 n b1 b2 y, (3 <= L)%nat -> (lin = true -> exists a b, f1 = Some a /\ f2 = Some b /\ 0 < a < b) ->
  log_smooth s L w lin f1 f2 n true b1 b2 = Ok y ->
  length y = length s /\ (forall lo hi, within lo hi s -> within lo hi y) /\ (forall c, s = repeat c (length s) -> y = s).
Proof.
  intros s L w lin f1 f2 n b1 b2 y HL HF H.
  assert (HS : (L <= length s)%nat) by (unfold log_smooth in H; destruct (Nat.ltb_spec (length s) L); [discriminate|assumption]).
  assert (HW : w <> BadWindow) by (intros ->; unfold log_smooth in H; rewrite (proj2 (Nat.ltb_ge (length s) L)), (proj2 (Nat.ltb_ge L 3)) in H by assumption; discriminate).
  rewrite log_smooth_body in H by auto. rename H into H'.
  destruct (proj1 (bind_ok _ _ _) H') as (x & Hx & H2). clear H'. destruct (proj1 (bind_ok _ _ _) H2) as (z & Hz & H3). clear H2. cbv beta in Hz, H3.
  assert (X : length x = length s /\ forall lo hi, within lo hi s -> within lo hi x).
  { destruct lin; [|injection Hx as <-; auto]. destruct (HF eq_refl) as (a & b & -> & -> & Hab).
    cbv zeta in Hx. set (m := match n with Some n => n | None => length s end) in *. destruct (Nat.eqb_spec m (length s)) as [Em|]; [|discriminate]. rewrite Em in Hx.
    split; [|intros lo hi W; apply (log_interp_within a b (length s) s x lo hi Hab ltac:(lia) eq_refl Hx W)]. 
    destruct (log_interp_within a b (length s) s x (rmin_from 0 s) (rmax_from 0 s) Hab ltac:(lia) eq_refl Hx) as [_ E]; [|exact E]. apply Forall_forall. intros v Hv. split; [apply rmin_from_in, Hv|apply rmax_from_in, Hv]. }
  destruct X as [LX WX]. destruct (Rltb_spec b1 0), (Rltb_spec 1 b1); cbn [orb] in H3; try discriminate. destruct (Rltb_spec b2 0), (Rltb_spec 1 b2); cbn [orb] in H3; try discriminate.
  match type of H3 with Ok ?b = Ok _ => assert (E : y = b) by congruence end. subst y. clear H3.
  assert (Q : forall lo hi, within lo hi s -> within lo hi (fix_both_ends z x (L / 2) b1 b2) /\ length (fix_both_ends z x (L / 2) b1 b2) = length x) by (intros lo hi W; apply (fixed_within x L w z lo hi b1 b2 HL Hz); [lra|lra|apply WX, W]).
  assert (LY : length (fix_both_ends z x (L / 2) b1 b2) = length s).
  { rewrite <- LX. apply (Q (rmin_from 0 s) (rmax_from 0 s)). apply Forall_forall. intros v Hv. split; [apply rmin_from_in, Hv|apply rmax_from_in, Hv]. }
  split; [exact LY|]. split; [intros lo hi W; apply Q, W|]. intros c E. assert (W : within c c s) by (rewrite E; apply Forall_forall; intros v Hv; apply repeat_spec in Hv; lra).
  destruct (Q c c W) as [WY _]. apply (list_ext 0); [exact LY|]. intros k Hk. pose proof (proj1 (within_nth c c _) WY k Hk). pose proof (proj1 (within_nth c c _) W k ltac:(lia)). lra.
Qed.

Theorem C35_log_errors : forall s L w f1 f2 n fix_ends b1 b2, (3 <= L <= length s)%nat ->
  (f1 = None \/ f2 = None -> log_smooth s L w true f1 f2 n fix_ends b1 b2 = Err ValueError) /\
  (forall m, n = Some m -> m <> length s -> log_smooth s L w true f1 f2 n fix_ends b1 b2 = Err ValueError) /\
  (b1 < 0 \/ 1 < b1 \/ b2 < 0 \/ 1 < b2 -> log_smooth s L w false f1 f2 n true b1 b2 = Err ValueError).
Proof.
  intros s L w f1 f2 n fx b1 b2 [HL HS]. unfold log_smooth. rewrite (proj2 (Nat.ltb_ge (length s) L)) by exact HS. rewrite (proj2 (Nat.ltb_ge L 3)) by exact HL. split; [|split].
  - intros [-> | ->]; destruct w; try reflexivity; destruct f1; reflexivity.
  - intros m -> Hm. destruct w; try reflexivity; destruct f1, f2; try reflexivity; rewrite (proj2 (Nat.eqb_neq m (length s))) by exact Hm; reflexivity.
  - intros HB. destruct (proj2 (C35_lin_accepts s L Flat)) as [y0 _]; [split; [lia|right; discriminate]|].
    assert (K : (if Rltb b1 0 || Rltb 1 b1 then true else Rltb b2 0 || Rltb 1 b2) = true).
    { destruct (Rltb_spec b1 0), (Rltb_spec 1 b1), (Rltb_spec b2 0), (Rltb_spec 1 b2); cbn [orb]; try reflexivity; lra. }
    destruct w; [| | | | |reflexivity]; cbn [bind]; (match goal with |- bind (lin_smooth s L ?W) _ = _ => destruct (proj2 (C35_lin_accepts s L W)) as [z Ez]; [split; [lia|right; discriminate]|]; rewrite Ez end); cbn [bind];
      destruct (Rltb b1 0 || Rltb 1 b1); try reflexivity; rewrite K; reflexivity.
Qed.

Example C35_instance : exists y, lin_smooth [3; 0; 6; 3] 3 Flat = Ok y /\ nth 1 y 0 = 3 /\
  exists z, log_smooth [2; 2; 2; 2] 3 Hanning true (Some 1) (Some 10) None true (9/10) (9/10) = Ok z.
Proof.
  eexists. split; [reflexivity|]. split; [cbn; field|]. unfold log_smooth. cbn [length Nat.ltb Nat.leb Nat.eqb]. destruct (np_interp_ok (combine (linspace 1 10 4) [2; 2; 2; 2]) (logspace (log10 1) (log10 10) 4)) as (ys & E & LY & _); [discriminate|]. unfold logspace in LY. rewrite map_length, linspace_length in LY.
  rewrite E. cbn [bind]. unfold lin_smooth. rewrite LY. cbn [Nat.ltb Nat.leb bind]. rewrite (proj2 (Rltb_false (9/10) 0)), (proj2 (Rltb_false 1 (9/10))) by lra. eexists. reflexivity.
Qed.
