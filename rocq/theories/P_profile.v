(** Specifications and proofs for the profile routines. *)
From Coq Require Import Reals List Bool ZArith Lia Lra.
From Verif Require Import Base M_profile.
Import ListNotations.
Open Scope R_scope.

(** ** Specification vocabulary *)

(** Depth of the top of layer [k]: the sum of the thicknesses above it. *)
Definition top (thk : list R) (k : nat) : R := rsum (firstn k thk).

(** Layer [k] contains depth [d]: half-open interval, the last layer extends
    downwards without limit. *)
Definition contains (thk : list R) (d : R) (k : nat) : Prop :=
  (k < length thk)%nat /\ top thk k <= d /\ ((S k < length thk)%nat -> d < top thk (S k)).

(** Thickness of the part of the layer [top, top+h] lying above depth [Z]. *)
Definition overlap (t h Z : R) : R := Rmax 0 (Rmin (t + h) Z - t).

(** Vertical travel time through the part of the profile above [Z]. *)
Fixpoint travel_time (p : list layer) (t Z : R) : R :=
  match p with
  | [] => 0
  | (h, vs) :: p' => overlap t h Z / vs + travel_time p' (t + h) Z
  end.

(** ** thk2dep / dep2thk *)
Lemma z_top_length z thk : length (z_top_from z thk) = length thk.
Proof. revert z; induction thk; cbn; auto. Qed.

Lemma z_mid_length z thk : length (z_mid_from z thk) = length thk.
Proof. revert z; induction thk; cbn; auto. Qed.

Lemma z_top_nth thk : forall z k d, (k < length thk)%nat ->
  nth k (z_top_from z thk) d = z + top thk k.
Proof.
  induction thk as [|h thk IH]; cbn; intros z k d Hk; [lia|].
  destruct k as [|k]; [unfold top; cbn; lra|].
  rewrite IH by lia. unfold top; cbn. lra.
Qed.

Lemma z_mid_nth thk : forall z k d, (k < length thk)%nat ->
  nth k (z_mid_from z thk) d = z + top thk k + nth k thk 0 / 2.
Proof.
  induction thk as [|h thk IH]; cbn; intros z k d Hk; [lia|].
  destruct k as [|k]; [unfold top; cbn; lra|].
  rewrite IH by lia. unfold top; cbn. lra.
Qed.

Lemma last_res_ok {A} (l : list A) d : l <> [] -> last_res l = Ok (last l d).
Proof.
  intros H. unfold last_res.
  destruct l as [|x l] using rev_ind; [congruence|].
  rewrite rev_app_distr, last_last. reflexivity.
Qed.

Lemma last_res_inv {A} (l : list A) x : last_res l = Ok x -> l <> [] /\ forall d, last l d = x.
Proof.
  intros H. destruct l as [|y l] using rev_ind; [discriminate|].
  unfold last_res in H. rewrite rev_app_distr in H. cbn in H. injection H as ->.
  split; [destruct l; discriminate|]. intros; apply last_last.
Qed.

Lemma thk2dep_top thk : thk <> [] -> thk2dep thk false = Ok (z_top_from 0 thk).
Proof. intros H. unfold thk2dep. rewrite (last_res_ok _ 0 H). reflexivity. Qed.

Lemma diffs0_length z : length (diffs0 z) = length z.
Proof. induction z as [|a [|b z] IH]; cbn in *; auto. Qed.

Lemma diffs0_z_top thk : forall z, thk <> [] -> diffs0 (z_top_from z thk) = removelast thk ++ [0].
Proof.
  induction thk as [|h thk IH]; intros z H; [congruence|].
  destruct thk as [|h' thk]; [reflexivity|].
  change (diffs0 (z_top_from z (h :: h' :: thk)))
    with ((z + h - z) :: diffs0 (z_top_from (z + h) (h' :: thk))).
  rewrite IH by discriminate. change (removelast (h :: h' :: thk)) with (h :: removelast (h' :: thk)).
  cbn [app]. f_equal. lra.
Qed.

Lemma z_top_diffs0 z a : z_top_from a (diffs0 (a :: z)) = a :: z.
Proof.
  revert a; induction z as [|b z IH]; intros a; [reflexivity|].
  change (diffs0 (a :: b :: z)) with ((b - a) :: diffs0 (b :: z)). cbn [z_top_from].
  f_equal. replace (a + (b - a)) with b by lra. apply IH.
Qed.

Lemma top_S thk k : (k < length thk)%nat -> top thk (S k) = top thk k + nth k thk 0.
Proof.
  unfold top. revert k; induction thk as [|h thk IH]; intros k Hk; cbn in Hk; [lia|].
  destruct k as [|k]; cbn [firstn rsum nth]; [destruct thk; cbn; lra|].
  specialize (IH k ltac:(lia)). cbn [firstn] in *. destruct thk; cbn in *; try lia; lra.
Qed.

Lemma top_mono thk : Forall (fun h => 0 <= h) thk -> forall i j, (i <= j)%nat -> top thk i <= top thk j.
Proof.
  intros H i j Hij. unfold top.
  revert i j Hij; induction H as [|h thk Hh H IH]; intros i j Hij.
  - rewrite !firstn_nil. lra.
  - destruct i, j; cbn; try lia; try lra.
    + assert (0 <= rsum (firstn j thk)).
      { apply rsum_nonneg. rewrite Forall_forall in *. intros x Hx. apply H.
        rewrite <- (firstn_skipn j thk). apply in_or_app; auto. }
      lra.
    + specialize (IH i j ltac:(lia)). lra.
Qed.

Lemma top_all thk : top thk (length thk) = rsum thk.
Proof. unfold top. rewrite firstn_all. reflexivity. Qed.

(** ** Query at a depth *)
Lemma searchsorted_right_spec a v :
  (searchsorted_right a v <= length a)%nat /\
  (forall i d, (i < searchsorted_right a v)%nat -> nth i a d <= v) /\
  (forall d, (searchsorted_right a v < length a)%nat -> v < nth (searchsorted_right a v) a d).
Proof.
  induction a as [|x a (IH1 & IH2 & IH3)]; cbn.
  - split; [lia|]. split; intros; lia.
  - destruct (Rleb_spec x v) as [H|H].
    + split; [lia|]. split.
      * intros [|i] d Hi; [lra|]. apply IH2; lia.
      * intros d Hd. apply IH3; lia.
    + split; [lia|]. split; [intros; lia|]. intros d Hd. lra.
Qed.

Lemma query_one_spec p d : p <> [] -> 0 <= d ->
  exists k v, contains (thk_of p) d k /\ nth_error (vs_of p) k = Some v /\
    query_one p (z_top_from 0 (thk_of p)) d = Ok v.
Proof.
  intros Hp Hd.
  destruct (searchsorted_right_spec (z_top_from 0 (thk_of p)) d) as (H1 & H2 & H3).
  rewrite z_top_length in *.
  set (s := searchsorted_right (z_top_from 0 (thk_of p)) d) in *.
  assert (Hs : (1 <= s)%nat).
  { subst s. destruct p as [|[h v] p]; [congruence|]. cbn.
    destruct (Rleb_spec 0 d); [lia|lra]. }
  assert (Hlen : length (thk_of p) = length (vs_of p)) by (unfold thk_of, vs_of; rewrite !map_length; auto).
  destruct (nth_error (vs_of p) (s - 1)) as [v|] eqn:E.
  2:{ apply nth_error_None in E. lia. }
  exists (s - 1)%nat, v. split; [|split; [exact E|]].
  - split; [lia|]. split.
    + specialize (H2 (s - 1)%nat 0 ltac:(lia)). rewrite z_top_nth in H2 by lia. lra.
    + intros Hlt. replace (S (s - 1)) with s in * by lia.
      specialize (H3 0 Hlt). rewrite z_top_nth in H3 by lia. lra.
  - unfold query_one. fold s. unfold get. rewrite E. reflexivity.
Qed.

(** Positive thicknesses except possibly the last: what the validator enforces. *)
Definition interior_pos (thk : list R) : Prop := Forall (fun h => 0 < h) (removelast thk).

Lemma removelast_nth {A} (l : list A) k d : (S k < length l)%nat ->
  nth k (removelast l) d = nth k l d /\ In (nth k l d) (removelast l).
Proof.
  revert k; induction l as [|x l IH]; intros k Hk; [cbn in Hk; lia|].
  destruct l as [|y l]; [cbn in Hk; lia|].
  change (removelast (x :: y :: l)) with (x :: removelast (y :: l)).
  destruct k as [|k]; [split; [reflexivity|left; reflexivity]|].
  destruct (IH k) as [E1 E2]; [cbn in *; lia|]. cbn [nth] in *. split; [exact E1|right; exact E2].
Qed.

Lemma top_strict thk i j : interior_pos thk -> (i < j)%nat -> (j < length thk)%nat ->
  top thk i < top thk j.
Proof.
  intros H Hij Hj. induction j as [|j IH]; [lia|].
  assert (0 < nth j thk 0).
  { destruct (removelast_nth thk j 0 Hj) as [_ Hin]. unfold interior_pos in H.
    rewrite Forall_forall in H. auto. }
  rewrite top_S by lia. destruct (Nat.eq_dec i j) as [->|]; [lra|].
  specialize (IH ltac:(lia) ltac:(lia)). lra.
Qed.

Lemma contains_unique thk d k1 k2 : interior_pos thk ->
  contains thk d k1 -> contains thk d k2 -> k1 = k2.
Proof.
  intros H (L1 & T1 & U1) (L2 & T2 & U2).
  destruct (Nat.lt_trichotomy k1 k2) as [Hlt|[->|Hlt]]; auto; exfalso.
  - specialize (U1 ltac:(lia)).
    destruct (Nat.eq_dec (S k1) k2) as [E|]; [rewrite E in *; lra|].
    pose proof (top_strict thk (S k1) k2 H ltac:(lia) ltac:(lia)). lra.
  - specialize (U2 ltac:(lia)).
    destruct (Nat.eq_dec (S k2) k1) as [E|]; [rewrite E in *; lra|].
    pose proof (top_strict thk (S k2) k1 H ltac:(lia) ltac:(lia)). lra.
Qed.

Lemma query_Vs_at_depth_spec p ds : p <> [] -> Forall (fun d => 0 <= d) ds ->
  exists vs, query_Vs_at_depth p ds = Ok vs /\
    Forall2 (fun d v => exists k, contains (thk_of p) d k /\ nth_error (vs_of p) k = Some v) ds vs.
Proof.
  intros Hp Hds. unfold query_Vs_at_depth.
  replace (existsb (fun d => Rltb d 0) ds) with false.
  2:{ symmetry. induction Hds as [|d ds Hd _ IH]; cbn; [reflexivity|].
      rewrite IH. rewrite (proj2 (Rltb_false d 0)) by lra. reflexivity. }
  rewrite thk2dep_top by (destruct p; [congruence|discriminate]). cbn [bind].
  induction Hds as [|d ds Hd _ (vs & E & HF)].
  - exists []. split; [reflexivity|constructor].
  - destruct (query_one_spec p d Hp Hd) as (k & v & Hc & Hv & Eq).
    exists (v :: vs). cbn [map_res]. rewrite Eq. cbn [bind]. rewrite E. cbn [bind].
    split; [reflexivity|]. constructor; eauto.
Qed.

Lemma query_negative p ds d : In d ds -> d < 0 -> query_Vs_at_depth p ds = Err ValueError.
Proof.
  intros Hin Hd. unfold query_Vs_at_depth.
  replace (existsb (fun d => Rltb d 0) ds) with true; [reflexivity|].
  symmetry. apply existsb_exists. exists d. split; auto. apply Rltb_true; auto.
Qed.

(** ** VsZ *)
Lemma overlap_nonneg t h Z : 0 <= overlap t h Z.
Proof. apply Rmax_l. Qed.

Ltac minmax := unfold overlap, Rmin, Rmax in *; repeat destruct Rle_dec; try lra.

Lemma travel_time_above p : forall t Z, Z <= t -> Forall (fun l => 0 <= fst l) p -> travel_time p t Z = 0.
Proof.
  induction p as [|[h v] p IH]; cbn; intros t Z HZ HF; [reflexivity|].
  inversion HF; subst; cbn in *. rewrite IH by (auto; lra).
  replace (overlap t h Z) with 0 by minmax. unfold Rdiv. lra.
Qed.

Lemma cumul_slowness_spec p : forall dep Z acc, dep <= Z -> Forall (fun l => 0 <= fst l) p ->
  cumul_slowness p dep Z acc = acc + travel_time p dep Z.
Proof.
  induction p as [|[h v] p IH]; cbn; intros dep Z acc HZ HF; [lra|].
  inversion HF; subst; cbn in *.
  destruct (Rltb_spec (dep + h) Z).
  - rewrite (proj2 (Rleb_false Z (dep + h))) by lra.
    rewrite IH by (auto; lra). replace (overlap dep h Z) with h by minmax. unfold Rdiv. lra.
  - rewrite (proj2 (Rleb_true Z (dep + h))) by lra.
    rewrite travel_time_above by (auto; lra).
    replace (overlap dep h Z) with (Z - dep) by minmax. unfold Rdiv. lra.
Qed.

(** Thickness above [Z] plus the extension below the profile add up to [Z]. *)
Lemma overlap_total p : forall t Z, t <= Z -> Forall (fun l => 0 <= fst l) p ->
  travel_time (map (fun l => (fst l, 1)) p) t Z + Rmax 0 (Z - (t + rsum (thk_of p))) = Z - t.
Proof.
  induction p as [|[h v] p IH]; cbn; intros t Z HZ HF.
  - minmax.
  - inversion HF; subst; cbn in *.
    destruct (Rle_dec (t + h) Z) as [Hle|Hgt].
    + specialize (IH (t + h) Z Hle H2). unfold thk_of in IH.
      replace (t + (h + rsum (map fst p))) with (t + h + rsum (map fst p)) by lra.
      replace (overlap t h Z) with h by minmax. unfold Rdiv. lra.
    + rewrite travel_time_above.
      * assert (0 <= rsum (map fst p)).
        { apply rsum_nonneg, Forall_map. auto. }
        minmax.
      * lra.
      * apply Forall_map. eapply Forall_impl; [|exact H2]. auto.
Qed.

(** Every layer starting above [Z] has a velocity in [lo,hi]. *)
Definition speeds_between (p : list layer) (t Z lo hi : R) : Prop :=
  forall k v, nth_error (vs_of p) k = Some v -> t + top (thk_of p) k < Z -> lo <= v <= hi.

Lemma travel_time_bounds p : forall t Z lo hi, 0 < lo -> Forall (fun l => 0 <= fst l) p ->
  speeds_between p t Z lo hi ->
  travel_time (map (fun l => (fst l, 1)) p) t Z / hi <= travel_time p t Z <=
  travel_time (map (fun l => (fst l, 1)) p) t Z / lo.
Proof.
  induction p as [|[h v] p IH]; cbn; intros t Z lo hi Hlo HF HS.
  - unfold Rdiv; lra.
  - inversion HF; subst; cbn in *.
    assert (HS' : speeds_between p (t + h) Z lo hi).
    { intros k v' Hk Ht. apply (HS (S k)); [exact Hk|]. unfold top, thk_of in *; cbn. lra. }
    specialize (IH (t + h) Z lo hi Hlo H2 HS').
    assert (Hov : overlap t h Z / hi <= overlap t h Z / v <= overlap t h Z / lo).
    { pose proof (overlap_nonneg t h Z) as Hnn.
      destruct (Rlt_dec t Z) as [Ht|Ht].
      - assert (lo <= v <= hi) as [Hv1 Hv2] by (apply (HS 0%nat); [reflexivity|unfold top; cbn; lra]).
        split; unfold Rdiv; apply Rmult_le_compat_l; auto; apply Rinv_le_contravar; lra.
      - replace (overlap t h Z) with 0 by minmax. unfold Rdiv; lra. }
    unfold Rdiv in *. rewrite Rinv_1, Rmult_1_r. lra.
Qed.

Definition good_profile (p : list layer) : Prop :=
  p <> [] /\ Forall (fun l => 0 <= fst l /\ 0 < snd l) p.

Lemma good_thk p : good_profile p -> Forall (fun l => 0 <= fst l) p.
Proof. intros [_ H]. eapply Forall_impl; [|exact H]. cbn; tauto. Qed.

Lemma good_last p : good_profile p -> exists v, last_res (vs_of p) = Ok v /\ 0 < v /\
  nth_error (vs_of p) (length p - 1) = Some v.
Proof.
  intros [Hne H]. destruct p as [|l p] using rev_ind; [congruence|]. clear IHp.
  exists (snd l). unfold vs_of. rewrite map_app. cbn [map].
  split; [|split].
  - unfold last_res. rewrite rev_app_distr. reflexivity.
  - apply Forall_app in H as [_ H]. inversion H; subst; tauto.
  - rewrite app_length. cbn. rewrite nth_error_app2 by (rewrite map_length; lia).
    rewrite map_length. replace (length p + 1 - 1 - length p)%nat with 0%nat by lia. reflexivity.
Qed.

(** Total travel time to depth Z, the last velocity being continued downwards. *)
Definition tt_ext (p : list layer) (vlast Z : R) : R :=
  travel_time p 0 Z + Rmax 0 (Z - rsum (thk_of p)) / vlast.

Lemma calc_VsZ_1 p Z : good_profile p -> 0 < Z ->
  exists v, nth_error (vs_of p) (length p - 1) = Some v /\
    calc_VsZ p Z 1 = Ok (Z / tt_ext p v Z).
Proof.
  intros Hg HZ. destruct (good_last p Hg) as (v & E & Hv & Hn).
  exists v. split; [exact Hn|]. unfold calc_VsZ, tt_ext.
  rewrite cumul_slowness_spec by (try lra; apply good_thk; auto).
  destruct (Rltb_spec (rsum (thk_of p)) Z).
  - rewrite E. cbn [bind]. f_equal. f_equal.
    replace (Rmax 0 (Z - rsum (thk_of p))) with (Z - rsum (thk_of p)) by minmax.
    unfold Rdiv. lra.
  - f_equal. f_equal. replace (Rmax 0 (Z - rsum (thk_of p))) with 0 by minmax. unfold Rdiv; lra.
Qed.

Lemma calc_VsZ_2 p Z : good_profile p -> 0 < Z ->
  calc_VsZ p Z 2 = Ok (Rmin (rsum (thk_of p)) Z / travel_time p 0 Z).
Proof.
  intros Hg HZ. unfold calc_VsZ.
  rewrite cumul_slowness_spec by (try lra; apply good_thk; auto). f_equal. f_equal. lra.
Qed.

Lemma tt_ext_bounds p v Z lo hi : good_profile p -> 0 < Z -> 0 < lo ->
  nth_error (vs_of p) (length p - 1) = Some v ->
  speeds_between p 0 Z lo hi ->
  Z / hi <= tt_ext p v Z <= Z / lo.
Proof.
  intros Hg HZ Hlo Hv HS.
  pose proof (travel_time_bounds p 0 Z lo hi Hlo (good_thk p Hg) HS) as Hb.
  pose proof (overlap_total p 0 Z ltac:(lra) (good_thk p Hg)) as Ht.
  rewrite Rplus_0_l in Ht. rewrite Rminus_0_r in Ht.
  set (OV := travel_time (map (fun l => (fst l, 1)) p) 0 Z) in *.
  unfold tt_ext. set (E := Rmax 0 (Z - rsum (thk_of p))) in *.
  assert (HE : 0 <= E) by apply Rmax_l.
  assert (Hext : E / hi <= E / v <= E / lo).
  { destruct (Rlt_dec (rsum (thk_of p)) Z) as [Hlt|Hge].
    - assert (lo <= v <= hi).
      { apply (HS (length p - 1)%nat); [exact Hv|]. rewrite Rplus_0_l.
        pose proof (top_mono (thk_of p)) as Hm.
        assert (HF : Forall (fun h => 0 <= h) (thk_of p)).
        { unfold thk_of. apply Forall_map. apply good_thk; auto. }
        specialize (Hm HF (length p - 1)%nat (length (thk_of p))).
        rewrite top_all in Hm.
        assert (HL : (length p - 1 <= length (thk_of p))%nat) by (unfold thk_of; rewrite map_length; apply Nat.le_sub_l).
        specialize (Hm HL). lra. }
      split; unfold Rdiv; apply Rmult_le_compat_l; auto; apply Rinv_le_contravar; lra.
    - replace E with 0 by (subst E; minmax). unfold Rdiv; lra. }
  assert (EQ : forall c, Z / c = OV / c + E / c) by (intros c; rewrite <- Ht at 1; unfold Rdiv; ring).
  rewrite !EQ. lra.
Qed.

Lemma tt_ext_pos p v Z : good_profile p -> 0 < Z ->
  nth_error (vs_of p) (length p - 1) = Some v -> 0 < tt_ext p v Z.
Proof.
  intros Hg HZ Hv.
  set (hi := rmax_from 1 (vs_of p)). set (lo := rmin_from 1 (vs_of p)).
  assert (Hpos : forall x, In x (vs_of p) -> 0 < x).
  { intros x Hx. unfold vs_of in Hx. apply in_map_iff in Hx as (l & <- & Hl).
    destruct Hg as [_ H]. rewrite Forall_forall in H. apply H; auto. }
  assert (Hlo : 0 < lo).
  { subst lo. clear -Hpos.
    assert (forall m, 0 < m -> 0 < rmin_from m (vs_of p)); [|apply H; lra].
    induction (vs_of p) as [|x l IH]; cbn; intros m Hm; auto.
    apply IH; [intros; apply Hpos; right; auto|].
    apply Rmin_glb_lt; auto. apply Hpos; left; auto. }
  assert (HS : speeds_between p 0 Z lo hi).
  { intros k x Hk _. apply nth_error_In in Hk. split; [apply rmin_from_in|apply rmax_from_in]; auto. }
  pose proof (tt_ext_bounds p v Z lo hi Hg HZ Hlo Hv HS) as [H _].
  assert (0 < hi) by (subst hi; pose proof (rmax_from_ge (vs_of p) 1); lra).
  assert (0 < Z / hi) by (apply Rdiv_lt_0_compat; auto). lra.
Qed.

Lemma VsZ_bounds p Z lo hi : good_profile p -> 0 < Z -> 0 < lo ->
  speeds_between p 0 Z lo hi ->
  exists x, calc_VsZ p Z 1 = Ok x /\ lo <= x <= hi.
Proof.
  intros Hg HZ Hlo HS. destruct (calc_VsZ_1 p Z Hg HZ) as (v & Hv & E).
  eexists; split; [exact E|].
  pose proof (tt_ext_bounds p v Z lo hi Hg HZ Hlo Hv HS) as [H1 H2].
  pose proof (tt_ext_pos p v Z Hg HZ Hv) as Hp.
  assert (Hhi : 0 < hi).
  { destruct p as [|[h w] p]; [destruct Hg; congruence|].
    specialize (HS 0%nat w eq_refl). unfold top in HS; cbn in HS. specialize (HS ltac:(lra)). lra. }
  set (T := tt_ext p v Z) in *.
  assert (Z <= hi * T).
  { apply (Rmult_le_compat_l hi) in H1; [|lra]. unfold Rdiv in H1.
    replace (hi * (Z * / hi)) with Z in H1 by (field; lra). lra. }
  assert (lo * T <= Z).
  { apply (Rmult_le_compat_l lo) in H2; [|lra]. unfold Rdiv in H2.
    replace (lo * (Z * / lo)) with Z in H2 by (field; lra). lra. }
  split.
  - apply (Rmult_le_reg_r T); auto. unfold Rdiv. rewrite Rmult_assoc, Rinv_l; lra.
  - apply (Rmult_le_reg_r T); auto. unfold Rdiv. rewrite Rmult_assoc, Rinv_l; lra.
Qed.

(** Raising velocities, thicknesses being equal. *)
Definition faster (p p' : list layer) : Prop :=
  Forall2 (fun l l' => fst l = fst l' /\ snd l <= snd l') p p'.

Lemma faster_thk p p' : faster p p' -> thk_of p = thk_of p'.
Proof. induction 1 as [|a b p p' [E _] _ IH]; cbn; [reflexivity|]. unfold thk_of in *. congruence. Qed.

Lemma faster_length p p' : faster p p' -> length p = length p'.
Proof. induction 1; cbn; auto. Qed.

Lemma faster_tt p p' : faster p p' -> Forall (fun l => 0 <= fst l /\ 0 < snd l) p ->
  forall t Z, travel_time p' t Z <= travel_time p t Z.
Proof.
  induction 1 as [|[h v] [h' v'] p p' [E L] HF IH]; cbn; intros HG t Z; [lra|].
  cbn in E, L; subst h'. inversion HG; subst; cbn in *.
  specialize (IH H2 (t + h) Z).
  assert (overlap t h Z / v' <= overlap t h Z / v).
  { unfold Rdiv. apply Rmult_le_compat_l; [apply overlap_nonneg|]. apply Rinv_le_contravar; lra. }
  lra.
Qed.

Lemma faster_nth p p' k v : faster p p' -> nth_error (vs_of p) k = Some v ->
  exists v', nth_error (vs_of p') k = Some v' /\ v <= v'.
Proof.
  intros H; revert k; induction H as [|a b p p' [_ L] _ IH]; intros [|k]; cbn; try discriminate.
  - intros E; injection E as <-. eauto.
  - apply IH.
Qed.

Lemma VsZ_monotone p p' Z : good_profile p -> good_profile p' -> 0 < Z -> faster p p' ->
  exists x x', calc_VsZ p Z 1 = Ok x /\ calc_VsZ p' Z 1 = Ok x' /\ x <= x'.
Proof.
  intros Hg Hg' HZ HF.
  destruct (calc_VsZ_1 p Z Hg HZ) as (v & Hv & E).
  destruct (calc_VsZ_1 p' Z Hg' HZ) as (v' & Hv' & E').
  do 2 eexists; split; [exact E|]; split; [exact E'|].
  pose proof (tt_ext_pos p v Z Hg HZ Hv). pose proof (tt_ext_pos p' v' Z Hg' HZ Hv').
  unfold Rdiv. apply Rmult_le_compat_l; [lra|]. apply Rinv_le_contravar; auto.
  unfold tt_ext. rewrite <- (faster_thk p p' HF).
  pose proof (faster_tt p p' HF (proj2 Hg) 0 Z).
  destruct (faster_nth _ _ _ _ HF Hv) as (w & Hw & Lw).
  rewrite (faster_length _ _ HF) in Hw.
  assert (w = v') by congruence. subst w.
  assert (0 < v).
  { apply nth_error_In in Hv. unfold vs_of in Hv. apply in_map_iff in Hv as (l & <- & Hl).
    destruct Hg as [_ HH]. rewrite Forall_forall in HH. apply HH; auto. }
  assert (Rmax 0 (Z - rsum (thk_of p)) / v' <= Rmax 0 (Z - rsum (thk_of p)) / v).
  { unfold Rdiv. apply Rmult_le_compat_l; [apply Rmax_l|]. apply Rinv_le_contravar; lra. }
  lra.
Qed.

Lemma travel_time_app p q : forall t Z,
  travel_time (p ++ q) t Z = travel_time p t Z + travel_time q (t + rsum (thk_of p)) Z.
Proof.
  induction p as [|[h v] p IH]; cbn; intros t Z.
  - rewrite Rplus_0_r. lra.
  - rewrite IH. unfold thk_of. cbn.
    replace (t + h + rsum (map fst p)) with (t + (h + rsum (map fst p))) by lra. lra.
Qed.

(** Only the material above [Z] matters. *)
Lemma VsZ_local p q Z : good_profile p -> good_profile (p ++ q) -> 0 < Z -> Z <= rsum (thk_of p) ->
  calc_VsZ (p ++ q) Z 1 = calc_VsZ p Z 1.
Proof.
  intros Hg Hg' HZ Ht.
  destruct (calc_VsZ_1 p Z Hg HZ) as (v & _ & ->).
  destruct (calc_VsZ_1 (p ++ q) Z Hg' HZ) as (v' & _ & ->).
  f_equal. f_equal. unfold tt_ext. rewrite travel_time_app.
  pose proof (good_thk _ Hg') as HF. apply Forall_app in HF as [_ HFq].
  rewrite (travel_time_above q) by (auto; lra).
  assert (0 <= rsum (thk_of q)).
  { apply rsum_nonneg. unfold thk_of. apply Forall_map. auto. }
  assert (E : thk_of (p ++ q) = thk_of p ++ thk_of q) by apply map_app.
  rewrite E, rsum_app. rewrite !Rmax_left by lra.
  unfold Rdiv; lra.
Qed.

(** ** Basin depth *)
Lemma basin_scan_spec p : forall t b total,
  let r := basin_scan p (z_top_from t (thk_of p)) b total in
  (exists k v, nth_error (vs_of p) k = Some v /\ b <= v /\ r = t + top (thk_of p) k /\
     forall j w, (j < k)%nat -> nth_error (vs_of p) j = Some w -> w < b) \/
  ((forall j w, nth_error (vs_of p) j = Some w -> w < b) /\ r = total).
Proof.
  induction p as [|[h v] p IH]; intros t b total r; subst r; cbn;
    try fold (thk_of p).
  - right. split; [intros [|j]; discriminate|reflexivity].
  - destruct (Rleb_spec b v).
    + left. exists 0%nat, v. split; [reflexivity|]. split; [auto|]. split; [unfold top; cbn; lra|].
      intros; lia.
    + destruct (IH (t + h) b total) as [(k & w & Hk & Hw & E & Hj)|(Hall & E)].
      * left. exists (S k), w. split; [exact Hk|]. split; [auto|]. split.
        { rewrite E. unfold top; cbn. lra. }
        intros [|j] w' Hlt Hw'; cbn in Hw'; [injection Hw' as <-; lra|]. eapply Hj; eauto; lia.
      * right. split; [|exact E]. intros [|j] w' Hw'; cbn in Hw'; [injection Hw' as <-; lra|]. eauto.
Qed.

(** ** stratify *)
Lemma Int_part_spec r : IZR (Int_part r) <= r < IZR (Int_part r) + 1.
Proof.
  destruct (base_Int_part r) as [H1 H2]. lra.
Qed.

Lemma ceil_spec q : IZR (ceil q) - 1 < q <= IZR (ceil q).
Proof.
  unfold ceil. rewrite opp_IZR. pose proof (Int_part_spec (- q)). lra.
Qed.

Lemma round_nearest q z : Rabs (IZR (round q) - q) <= Rabs (IZR z - q).
Proof.
  unfold round. pose proof (Int_part_spec (q + / 2)) as H.
  set (r := Int_part (q + / 2)) in *.
  assert (Hr : Rabs (IZR r - q) <= / 2) by (apply Rabs_le; lra).
  destruct (Z.eq_dec z r) as [->|Hne]; [lra|].
  assert (/ 2 <= Rabs (IZR z - q)); [|lra].
  assert (Hz : (z <= r - 1 \/ r + 1 <= z)%Z) by lia.
  destruct Hz as [Hz|Hz]; apply IZR_le in Hz; [rewrite minus_IZR in Hz|rewrite plus_IZR in Hz].
  - rewrite Rabs_left1 by lra. lra.
  - rewrite Rabs_right by lra. lra.
Qed.

(** [q] is within the relative tolerance of some integer. *)
Definition near_integer (q : R) : Prop :=
  exists z : Z, Rabs (IZR z - q) <= / 10 ^ 8 + / 10 ^ 5 * Rabs q.

Lemma allclose_round_spec q : allclose_round q = true <-> near_integer q.
Proof.
  unfold allclose_round, near_integer. rewrite Rleb_true. split; [eauto|].
  intros [z Hz]. eapply Rle_trans; [apply round_nearest|exact Hz].
Qed.

Definition total_h (g : list row) : R := rsum (map r_h g).

(** What the sub-layers of one layer must look like. *)
Definition subdivides (r : row) (g : list row) : Prop :=
  g <> [] /\
  Forall (fun s => r_vs s = r_vs r /\ r_rest s = r_rest r /\ 0 < r_h s <= r_vs r / 225) g /\
  r_h r <= total_h g < r_h r + r_vs r / 225 /\
  ((1 < length g)%nat -> INR (length g - 1) * (r_vs r / 225) < r_h r).

Lemma repeat_total h vs rest n : total_h (repeat (mkrow h vs rest) n) = INR n * h.
Proof.
  unfold total_h. replace (map r_h (repeat (mkrow h vs rest) n)) with (repeat h n).
  - apply rsum_repeat.
  - induction n; cbn; congruence.
Qed.

Lemma sublayers_spec r : 0 < r_h r -> 0 < r_vs r ->
  subdivides r (sublayers r) /\
  (r_h r <= r_vs r / 225 \/ ~ near_integer (r_h r / (r_vs r / 225)) -> total_h (sublayers r) = r_h r) /\
  (r_vs r / 225 < r_h r -> near_integer (r_h r / (r_vs r / 225)) ->
     total_h (sublayers r) = IZR (ceil (r_h r / (r_vs r / 225))) * (r_vs r / 225)).
Proof.
  intros Hh Hv. set (ht := r_vs r / 225).
  assert (Hht : 0 < ht) by (subst ht; lra).
  unfold sublayers. fold ht.
  destruct (Rleb_spec (r_h r) ht) as [Hle|Hgt].
  - split; [|split].
    + split; [discriminate|]. split; [constructor; [|constructor]; repeat split; auto|]. split.
      * unfold total_h; cbn. fold ht. lra.
      * cbn. intros; lia.
    + intros _. unfold total_h; cbn. lra.
    + intros; lra.
  - set (q := r_h r / ht) in *.
    assert (Hq : r_h r = q * ht) by (subst q; field; lra).
    assert (Hq1 : 1 < q).
    { apply (Rmult_lt_reg_r ht); auto. lra. }
    pose proof (ceil_spec q) as Hc. set (c := ceil q) in *.
    assert (Hc2 : (2 <= c)%Z).
    { assert (IZR 1 < IZR c) by lra. apply lt_IZR in H. lia. }
    assert (HN : INR (Z.to_nat c) = IZR c).
    { rewrite INR_IZR_INZ, Z2Nat.id by lia. reflexivity. }
    assert (Hn2 : (2 <= Z.to_nat c)%nat) by lia.
    set (h' := if allclose_round q then ht else r_h r / INR (Z.to_nat c)).
    assert (Hh' : 0 < h' <= ht).
    { subst h'. destruct allclose_round; [lra|]. rewrite HN. split.
      - apply Rdiv_lt_0_compat; [lra|]. apply (IZR_lt 0); lia.
      - apply (Rmult_le_reg_r (IZR c)); [apply (IZR_lt 0); lia|].
        unfold Rdiv. rewrite Rmult_assoc, Rinv_l by (apply not_0_IZR; lia).
        rewrite Rmult_1_r, Hq. rewrite (Rmult_comm ht). apply Rmult_le_compat_r; lra. }
    assert (Htot : total_h (repeat (mkrow h' (r_vs r) (r_rest r)) (Z.to_nat c)) = IZR c * h').
    { rewrite repeat_total, HN. reflexivity. }
    assert (Hbd : r_h r <= IZR c * ht < r_h r + ht).
    { rewrite Hq. split.
      - apply Rmult_le_compat_r; lra.
      - replace (q * ht + ht) with ((q + 1) * ht) by ring. apply Rmult_lt_compat_r; lra. }
    assert (Hdiv : IZR c * (r_h r / INR (Z.to_nat c)) = r_h r).
    { rewrite HN. field. apply not_0_IZR; lia. }
    split; [|split].
    + split; [destruct (Z.to_nat c); [lia|discriminate]|]. split.
      * apply Forall_forall. intros s Hs. apply repeat_spec in Hs. subst s. cbn.
        fold ht. auto.
      * split.
        { rewrite Htot. subst h'. destruct allclose_round; fold ht; [exact Hbd|].
          rewrite Hdiv. lra. }
        rewrite repeat_length. fold ht. intros _. rewrite minus_INR by lia.
        change (INR 1) with 1. rewrite HN. rewrite Hq. apply Rmult_lt_compat_r; lra.
    + intros [Hl|Hn]; [lra|]. rewrite Htot. subst h'.
      destruct (allclose_round q) eqn:E; [apply allclose_round_spec in E; contradiction|].
      apply Hdiv.
    + intros _ Hn. rewrite Htot. subst h'.
      apply allclose_round_spec in Hn. rewrite Hn. reflexivity.
Qed.

(** The whole profile: groups of sub-layers in order, then the half space. *)
Definition refines (p out : list row) : Prop :=
  exists groups, Forall2 subdivides p groups /\ out = concat groups.

Lemma flat_map_refines p : Forall (fun r => 0 < r_h r /\ 0 < r_vs r) p -> refines p (flat_map sublayers p).
Proof.
  intros H. exists (map sublayers p). split; [|apply flat_map_concat_map].
  induction H as [|r p [H1 H2] _ IH]; cbn; constructor; auto. apply sublayers_spec; auto.
Qed.

(** ** get_xi_rho *)
Lemma xi3_eq v : 0 < v -> 0 < Qs_formula_3 v.
Proof.
  intros H. unfold Qs_formula_3. destruct (Rleb_spec v 1000), (Rleb_spec v 2000); lra.
Qed.

Lemma Qs3_monotone v w : 0 < v -> v <= w -> Qs_formula_3 v <= Qs_formula_3 w.
Proof.
  intros H Hvw. unfold Qs_formula_3.
  destruct (Rleb_spec v 1000), (Rleb_spec w 1000), (Rleb_spec v 2000), (Rleb_spec w 2000); try lra.
Qed.

Lemma inv2_antitone a b : 0 < a -> a <= b -> 1 / (2 * b) <= 1 / (2 * a).
Proof.
  intros Ha Hab. unfold Rdiv. rewrite !Rmult_1_l. apply Rinv_le_contravar; lra.
Qed.

(** ** Staircase for plots *)
Lemma map_res_get_seq {A} (l : list A) (f : nat -> nat) n d :
  (forall i, (i < n)%nat -> (f i < length l)%nat) ->
  map_res (fun i => get l (f i)) (seq 0 n) = Ok (map (fun i => nth (f i) l d) (seq 0 n)).
Proof.
  intros H. apply map_res_ok. intros i Hi. apply in_seq in Hi. apply get_ok. apply H. lia.
Qed.
