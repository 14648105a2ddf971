(** Lemmas about the discretisation by velocity increments (class_svm.py:380-431). *)
From Coq Require Import Reals List Bool ZArith Lia Lra.
From Verif Require Import Base M_generic P_generic M_profile P_profile Prop_profile M_vs_profile P_vs_profile Prop_vs_profile Prop_vs_query M_svm P_svm.
Import ListNotations.
Open Scope R_scope.

(** The rows at which a layer is closed: [idx] lists them in order.
    The m-th of them is at least m increments above [prev]; between two of them the
    velocity stays less than one increment above the one that closed the layer above. *)
Definition closes (inc prev : R) (vs : list R) (idx : list nat) : Prop :=
  (forall m, (S m < length idx)%nat -> (nth m idx 0 < nth (S m) idx 0)%nat) /\
  (forall m, (m < length idx)%nat -> (nth m idx 0 < length vs)%nat /\ prev + INR (S m) * inc <= nth (nth m idx 0%nat) vs 0) /\
  (forall i, (i < length vs)%nat -> (idx = [] \/ (i < nth 0 idx 0)%nat) -> nth i vs 0 < prev + inc) /\
  (forall m i, (m < length idx)%nat -> (nth m idx 0 < i < length vs)%nat -> ((S m < length idx)%nat -> (i < nth (S m) idx 0)%nat) ->
     nth i vs 0 < nth (nth m idx 0%nat) vs 0 + inc).

Lemma nth_map_S idx m : (m < length idx)%nat -> nth m (map S idx) 0%nat = S (nth m idx 0%nat).
Proof. intros H. rewrite (nth_indep _ 0%nat (S 0)) by (rewrite map_length; auto). apply map_nth. Qed.

Lemma incr_scan_spec inc p : forall prev tmp depth, exists idx,
  incr_scan inc p prev tmp depth = map (fun i => depth + rsum (firstn (S i) (thk_of p))) idx /\ closes inc prev (vs_of p) idx.
Proof.
  induction p as [|[t v] p IH]; intros prev tmp depth.
  - exists []. split; [reflexivity|]. unfold closes. cbn. repeat split; intros; lia.
  - cbn [incr_scan]. destruct (Rltb_spec v (prev + inc)) as [Hlt|Hge].
    + destruct (IH prev (tmp + t) (depth + t)) as (idx & E & H1 & H2 & H3 & H4). exists (map S idx). split.
      { rewrite E, map_map. apply map_ext. intros i. cbn [thk_of map firstn rsum fst]. fold (thk_of p). cbn [rsum]. 
        change (firstn (S i) (thk_of p)) with (firstn (S i) (thk_of p)). lra. }
      change (vs_of ((t, v) :: p)) with (v :: vs_of p). unfold closes. rewrite map_length. cbn [length].
      split; [|split; [|split]].
      * intros m Hm. rewrite !nth_map_S by lia. specialize (H1 m Hm). lia.
      * intros m Hm. rewrite nth_map_S by lia. cbn [nth]. destruct (H2 m Hm). split; [lia|auto].
      * intros [|i] Hi Hor; cbn [nth]; [exact Hlt|]. apply H3; [lia|]. destruct idx as [|a idx]; [left; reflexivity|].
        right. destruct Hor as [Hor|Hor]; [discriminate|]. cbn in *. lia.
      * intros m i Hm Hi Hn. rewrite nth_map_S in * by lia. destruct i as [|i]; [lia|]. cbn [nth].
        apply H4; [auto|lia|]. intros Hs. specialize (Hn Hs). rewrite nth_map_S in Hn by lia. lia.
    + set (prev' := if Reqb tmp 0 then v else prev + inc).
      assert (Hp : prev + inc <= prev' <= v) by (unfold prev'; destruct (Reqb tmp 0); lra).
      destruct (IH prev' 0 (depth + t)) as (idx & E & H1 & H2 & H3 & H4). exists (0%nat :: map S idx). split.
      { rewrite E. cbn [map]. f_equal; [cbn; lra|]. rewrite map_map. apply map_ext. intros i.
        change (thk_of ((t, v) :: p)) with (t :: thk_of p). change (firstn (S (S i)) (t :: thk_of p)) with (t :: firstn (S i) (thk_of p)).
        cbn [rsum]. lra. }
      change (vs_of ((t, v) :: p)) with (v :: vs_of p). unfold closes. cbn [length]. rewrite map_length.
      split; [|split; [|split]].
      * intros [|m] Hm; cbn [nth]; rewrite !nth_map_S by lia; [lia|]. specialize (H1 m ltac:(lia)). lia.
      * intros [|m] Hm; cbn [nth]; [split; [lia|cbn; lra]|]. rewrite nth_map_S by lia. destruct (H2 m ltac:(lia)) as [Ha Hb].
        split; [lia|]. rewrite S_INR. lra.
      * intros i Hi [Hor|Hor]; [discriminate|cbn in Hor; lia].
      * intros [|m] i Hm Hi Hn; cbn [nth] in *.
        -- destruct i as [|i]; [lia|]. cbn [nth].
           assert (nth i (vs_of p) 0 < prev' + inc); [|lra]. apply H3; [lia|]. destruct idx as [|a idx]; [left; reflexivity|].
           right. cbn [length map nth] in *. specialize (Hn ltac:(lia)). lia.
        -- rewrite nth_map_S in * by lia. destruct i as [|i]; [lia|]. apply H4; [lia|lia|]. intros Hs. specialize (Hn ltac:(lia)).
           rewrite nth_map_S in Hn by lia. lia.
Qed.

Lemma closes_lt inc prev vs idx : closes inc prev vs idx -> forall a b, (a < b < length idx)%nat -> (nth a idx 0 < nth b idx 0)%nat.
Proof.
  intros (H & _) a b. induction b as [|b IH]; intros Hb; [lia|]. specialize (H b ltac:(lia)).
  destruct (Nat.eq_dec a b) as [->|]; [auto|]. specialize (IH ltac:(lia)). lia.
Qed.

Lemma closes_In_nth inc prev vs idx a : closes inc prev vs idx -> In a idx -> exists m, (m < length idx)%nat /\ nth m idx 0%nat = a.
Proof. intros _ H. destruct (In_nth _ _ 0%nat H) as (m & Hm & E). eauto. Qed.

Lemma last_nth' {A} (l : list A) d : l <> [] -> last l d = nth (length l - 1) l d.
Proof.
  induction l as [|x l IH]; intros H; [congruence|]. destruct l as [|y l]; [reflexivity|].
  change (last (x :: y :: l) d) with (last (y :: l) d). rewrite IH by discriminate. cbn [length nth].
  replace (S (S (length l)) - 1)%nat with (S (S (length l) - 1)) by lia. reflexivity.
Qed.

(** Thicknesses of the layers ending at the depths [bs]. *)
Definition bottoms_thk (bs : list R) : list R := removelast (diffs0 (0 :: bs)).

Lemma bottoms_thk_length bs : length (bottoms_thk bs) = length bs.
Proof.
  unfold bottoms_thk. pose proof (diffs0_length (0 :: bs)) as H. cbn [length] in H.
  assert (Hne : diffs0 (0 :: bs) <> []) by (destruct (diffs0 (0 :: bs)); [cbn in H; lia|discriminate]).
  rewrite (app_removelast_last 0 Hne), app_length in H. cbn [length] in H. lia.
Qed.

Lemma diffs0_nth z : forall k, (S k < length z)%nat -> nth k (diffs0 z) 0 = nth (S k) z 0 - nth k z 0.
Proof.
  induction z as [|a z IH]; intros k Hk; [cbn in Hk; lia|]. destruct z as [|b z]; [cbn in Hk; lia|].
  change (diffs0 (a :: b :: z)) with ((b - a) :: diffs0 (b :: z)). destruct k as [|k]; [reflexivity|].
  cbn [nth]. rewrite IH by (cbn in *; lia). reflexivity.
Qed.

Lemma bottoms_thk_nth bs k : (k < length bs)%nat -> nth k (bottoms_thk bs) 0 = nth k bs 0 - nth k (0 :: bs) 0.
Proof.
  intros Hk. unfold bottoms_thk. rewrite (proj1 (removelast_nth (diffs0 (0 :: bs)) k 0 ltac:(rewrite diffs0_length; cbn; lia))).
  rewrite diffs0_nth by (cbn; lia). reflexivity.
Qed.

Lemma bottoms_thk_sum bs k : (k < length bs)%nat -> rsum (firstn (S k) (bottoms_thk bs)) = nth k bs 0.
Proof.
  intros Hk. unfold bottoms_thk. pose proof (top_diffs0' bs (S k) ltac:(lia)) as H. unfold top in H. cbn [nth] in H. rewrite <- H. f_equal.
  assert (Hne : diffs0 (0 :: bs) <> []) by (pose proof (diffs0_length (0 :: bs)) as HL; destruct (diffs0 (0 :: bs)); [cbn in HL; lia|discriminate]).
  rewrite (app_removelast_last 0 Hne) at 2. rewrite firstn_app.
  replace (S k - length (removelast (diffs0 (0%R :: bs))))%nat with 0%nat by (pose proof (bottoms_thk_length bs); unfold bottoms_thk in *; lia).
  cbn [firstn]. rewrite app_nil_r. reflexivity.
Qed.

Lemma rmax_from_spec l : forall a, (forall x, In x l -> x <= rmax_from a l) /\ a <= rmax_from a l /\ (rmax_from a l = a \/ In (rmax_from a l) l).
Proof.
  induction l as [|y l IH]; intros a; cbn [rmax_from].
  - split; [intros x []|]. split; [lra|auto].
  - destruct (IH (Rmax a y)) as (H1 & H2 & H3). pose proof (Rmax_l a y). pose proof (Rmax_r a y).
    split; [intros x [<-|Hx]; [lra|auto]|]. split; [lra|].
    destruct H3 as [H3|H3]; [|right; right; exact H3]. unfold Rmax in *. destruct (Rle_dec a y); [right; left; auto|left; auto].
Qed.

(** The layers that one increment gives over a table that a profile accepts. *)
Lemma increment_thk inc p v0 : (2 <= length p)%nat -> interior_pos (thk_of p) -> last (thk_of p) 0 = 0 ->
  exists idx ta, dep2thk (0 :: incr_scan inc p v0 0 0) false = Ok ta /\ closes inc v0 (vs_of p) idx /\ length ta = length idx /\
    (forall m, (m < length idx)%nat -> rsum (firstn (S m) ta) = rsum (firstn (S (nth m idx 0%nat)) (thk_of p))) /\
    interior_pos ta /\ 0 <= last ta 0 /\
    (ta <> [] -> (last ta 0 = 0 <-> In (length p - 2)%nat idx /\ In (length p - 1)%nat idx)).
Proof.
  intros Hn Hi H0. destruct (incr_scan_spec inc p v0 0 0) as (idx & E & Hcl).
  set (T := fun i : nat => 0 + rsum (firstn (S i) (thk_of p))) in *.
  assert (Hlp : length (thk_of p) = length p) by apply map_length.
  assert (Hlv : length (vs_of p) = length p) by apply map_length.
  exists idx, (bottoms_thk (map T idx)).
  split. { unfold dep2thk. cbn [get nth_error bind]. rewrite (proj2 (Reqb_true 0 0) eq_refl). cbn [negb]. rewrite E. reflexivity. }
  split; [exact Hcl|].
  assert (HL : length (bottoms_thk (map T idx)) = length idx) by (rewrite bottoms_thk_length, map_length; reflexivity).
  split; [exact HL|].
  assert (HT : forall m, (m < length idx)%nat -> nth m (map T idx) 0 = T (nth m idx 0%nat)).
  { intros m Hm. rewrite (nth_indep _ 0 (T 0%nat)) by (rewrite map_length; auto). apply map_nth. }
  split. { intros m Hm. rewrite bottoms_thk_sum by (rewrite map_length; auto). rewrite HT by auto. unfold T. lra. }
  assert (Hr : forall m, (m < length idx)%nat -> (nth m idx 0 < length p)%nat).
  { intros m Hm. destruct Hcl as (_ & H2 & _). rewrite <- Hlv. apply H2, Hm. }
  assert (Hpos : forall a b, (a < b)%nat -> (b < length p - 1)%nat -> T a < T b).
  { intros a b Hab Hb. unfold T. pose proof (top_strict (thk_of p) (S a) (S b) Hi ltac:(lia) ltac:(lia)). unfold top in *. lra. }
  assert (Hend : T (length p - 1)%nat = T (length p - 2)%nat).
  { unfold T. replace (S (length p - 1)) with (length (thk_of p)) by lia. rewrite firstn_all. 
    assert (Hne : thk_of p <> []) by (destruct p; [cbn in Hn; lia|discriminate]).
    rewrite (app_removelast_last 0 Hne) at 1. rewrite rsum_app, H0. cbn [rsum].
    replace (S (length p - 2)) with (length (thk_of p) - 1)%nat by lia.
    replace (firstn (length (thk_of p) - 1) (thk_of p)) with (removelast (thk_of p)); [lra|].
    rewrite removelast_firstn_len. f_equal. lia. }
  assert (HT0 : forall a, (a < length p)%nat -> 0 < T a).
  { intros a Ha.
    assert (HB : 0 < T 0%nat).
    { pose proof (top_strict (thk_of p) 0 1 Hi ltac:(lia) ltac:(lia)) as H. unfold top in H. change (firstn 0 (thk_of p)) with (@nil R) in H. cbn [rsum] in H. unfold T. lra. }
    destruct (Nat.eq_dec a (length p - 1)) as [->|].
    - rewrite Hend. destruct (Nat.eq_dec (length p - 2) 0) as [->|]; [auto|]. pose proof (Hpos 0%nat (length p - 2)%nat ltac:(lia) ltac:(lia)). lra.
    - destruct (Nat.eq_dec a 0) as [->|]; [auto|]. pose proof (Hpos 0%nat a ltac:(lia) ltac:(lia)). lra. }
  assert (Hle : forall a b, (a < b)%nat -> (b < length p)%nat -> T a <= T b /\ (T a = T b <-> a = (length p - 2)%nat /\ b = (length p - 1)%nat)).
  { intros a b Hab Hb. destruct (Nat.eq_dec b (length p - 1)) as [->|].
    - rewrite Hend. destruct (Nat.eq_dec a (length p - 2)) as [->|]; [split; [lra|tauto]|].
      pose proof (Hpos a (length p - 2)%nat ltac:(lia) ltac:(lia)). split; [lra|]. split; [lra|intros []; lia].
    - pose proof (Hpos a b ltac:(lia) ltac:(lia)). split; [lra|]. split; [lra|intros []; lia]. }
  assert (Hnth : forall k, (k < length idx)%nat -> nth k (bottoms_thk (map T idx)) 0 = T (nth k idx 0%nat) - match k with O => 0 | S j => T (nth j idx 0%nat) end).
  { intros k Hk. rewrite bottoms_thk_nth by (rewrite map_length; auto). rewrite HT by auto. f_equal. destruct k as [|k]; [reflexivity|].
    cbn [nth]. apply HT. lia. }
  assert (Hlast : bottoms_thk (map T idx) <> [] -> last (bottoms_thk (map T idx)) 0 = nth (length idx - 1) (bottoms_thk (map T idx)) 0).
  { intros Hne. rewrite last_nth' by auto. rewrite HL. reflexivity. }
  split; [|split].
  - unfold interior_pos. apply Forall_forall. intros x Hx. apply (In_nth _ _ 0) in Hx as (k & Hk & <-).
    assert (Hne : bottoms_thk (map T idx) <> []) by (intros E0; rewrite E0 in Hk; cbn in Hk; lia).
    assert (Hk' : (S k < length idx)%nat).
    { rewrite <- HL. rewrite (app_removelast_last 0 Hne), app_length. cbn [length]. lia. }
    rewrite (proj1 (removelast_nth (bottoms_thk (map T idx)) k 0 ltac:(lia))). rewrite Hnth by lia.
    pose proof (closes_lt _ _ _ _ Hcl k (S k) ltac:(lia)) as Hkk. pose proof (Hr (S k) Hk') as Hrk.
    destruct k as [|k]; [pose proof (HT0 (nth 0 idx 0%nat) ltac:(lia)); lra|].
    pose proof (closes_lt _ _ _ _ Hcl k (S k) ltac:(lia)) as Hkk2.
    pose proof (Hpos (nth k idx 0%nat) (nth (S k) idx 0%nat) ltac:(lia) ltac:(lia)). lra.
  - destruct (bottoms_thk (map T idx)) eqn:Eb; [cbn; lra|]. rewrite <- Eb in *. rewrite Hlast by (rewrite Eb; discriminate).
    assert (0 < length idx)%nat by (rewrite <- HL, Eb; cbn; lia).
    rewrite Hnth by lia. destruct (length idx - 1)%nat as [|j] eqn:Ej; [pose proof (HT0 (nth 0 idx 0%nat) (Hr 0%nat ltac:(lia))); lra|].
    destruct (Hle (nth j idx 0%nat) (nth (S j) idx 0%nat) (closes_lt _ _ _ _ Hcl j (S j) ltac:(lia)) (Hr (S j) ltac:(lia))). lra.
  - intros Hne. rewrite Hlast by auto.
    assert (0 < length idx)%nat by (rewrite <- HL; destruct (bottoms_thk (map T idx)); [congruence|cbn; lia]).
    rewrite Hnth by lia. split.
    + destruct (length idx - 1)%nat as [|j] eqn:Ej; [pose proof (HT0 (nth 0 idx 0%nat) (Hr 0%nat ltac:(lia))); lra|].
      destruct (Hle (nth j idx 0%nat) (nth (S j) idx 0%nat) (closes_lt _ _ _ _ Hcl j (S j) ltac:(lia)) (Hr (S j) ltac:(lia))) as [_ Hiff].
      intros HD. destruct (proj1 Hiff ltac:(lra)) as [<- <-]. split; apply nth_In; lia.
    + intros [Ha Hb]. destruct (closes_In_nth _ _ _ _ _ Hcl Ha) as (ma & Hma & Ea). destruct (closes_In_nth _ _ _ _ _ Hcl Hb) as (mb & Hmb & Eb).
      assert (Emb : mb = (length idx - 1)%nat).
      { destruct (Nat.eq_dec mb (length idx - 1)) as [|]; [auto|]. pose proof (closes_lt _ _ _ _ Hcl mb (length idx - 1)%nat ltac:(lia)).
        pose proof (Hr (length idx - 1)%nat ltac:(lia)). lia. }
      assert (Hab : (ma < mb)%nat).
      { destruct (Nat.lt_trichotomy ma mb) as [|[->|Hgt]]; [auto|lia|]. pose proof (closes_lt _ _ _ _ Hcl mb ma ltac:(lia)). lia. }
      assert (ma = (mb - 1)%nat).
      { destruct (Nat.eq_dec ma (mb - 1)) as [|]; [auto|]. pose proof (closes_lt _ _ _ _ Hcl ma (mb - 1)%nat ltac:(lia)).
        pose proof (closes_lt _ _ _ _ Hcl (mb - 1)%nat mb ltac:(lia)). lia. }
      rewrite <- Emb. destruct mb as [|j]; [lia|]. replace (nth j idx 0%nat) with (nth ma idx 0%nat) by (f_equal; lia). rewrite Ea, Eb, Hend. lra.
Qed.
