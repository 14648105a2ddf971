(** Lemmas about parameter dictionaries. *)
From Coq Require Import Reals List Bool ZArith String Lia Lra Permutation.
From Verif Require Import Base M_generic M_params.
Import ListNotations.
Open Scope R_scope.
Open Scope string_scope.
Open Scope list_scope.

Definition set_eq (l1 l2 : list string) : Prop := forall k, In k l1 <-> In k l2.

Lemma mem_In k l : mem k l = true <-> In k l.
Proof.
  unfold mem. rewrite existsb_exists. split.
  - intros (x & Hx & E). apply String.eqb_eq in E. subst. exact Hx.
  - intros H. exists k. split; [exact H|apply String.eqb_refl].
Qed.
Lemma mem_false k l : mem k l = false <-> ~ In k l.
Proof. rewrite <- mem_In. destruct (mem k l); split; congruence. Qed.

Lemma same_keys_iff d allow : same_keys d allow = true <-> set_eq (keys d) allow.
Proof.
  unfold same_keys, set_eq. rewrite andb_true_iff, !forallb_forall. setoid_rewrite mem_In. split.
  - intros [H1 H2] k. split; auto.
  - intros H. split; intros k Hk; apply H; exact Hk.
Qed.

Lemma dget_dset k v d k' : dget k' (dset k v d) = if String.eqb k' k then Some v else dget k' d.
Proof.
  induction d as [|[k0 v0] d IH]; cbn; [reflexivity|].
  destruct (String.eqb_spec k k0) as [->|H]; cbn.
  - destruct (String.eqb k' k0); reflexivity.
  - destruct (String.eqb_spec k' k0) as [->|H']; [|exact IH].
    destruct (String.eqb_spec k0 k); congruence.
Qed.

Lemma keys_dset k v d : keys (dset k v d) = if mem k (keys d) then keys d else keys d ++ [k].
Proof.
  induction d as [|[k0 v0] d IH]; cbn; [reflexivity|].
  destruct (String.eqb_spec k k0) as [->|H]; cbn; [reflexivity|].
  unfold keys in *. rewrite IH. unfold mem. destruct (existsb _ _); reflexivity.
Qed.

Lemma dset_new k v d : ~ In k (keys d) -> dset k v d = d ++ [(k, v)].
Proof.
  induction d as [|[k0 v0] d IH]; cbn; intros H; [reflexivity|].
  destruct (String.eqb_spec k k0) as [->|Hk]; [tauto|]. rewrite IH by tauto. reflexivity.
Qed.

Lemma dget_In k d : In k (keys d) <-> exists v, dget k d = Some v.
Proof.
  induction d as [|[k0 v0] d IH]; cbn; [split; [tauto|intros (v & ?); discriminate]|].
  destruct (String.eqb_spec k k0) as [->|Hk].
  - split; [eauto|auto].
  - rewrite <- IH. split; [intros [E|E]; [congruence|exact E]|auto].
Qed.

Lemma update_fresh allow items : forall d, NoDup (keys d ++ keys items) -> (forall k, In k (keys items) -> In k allow) ->
  update allow d items = (d ++ items, Ok tt).
Proof.
  induction items as [|[k v] items IH]; intros d HN HA; cbn.
  - rewrite app_nil_r. reflexivity.
  - unfold setitem. rewrite (proj2 (mem_In k allow)) by (apply HA; left; reflexivity).
    cbn in HN. assert (Hk : ~ In k (keys d)).
    { apply NoDup_remove_2 in HN. intros X. apply HN, in_or_app. auto. }
    rewrite dset_new by exact Hk. rewrite IH.
    + rewrite <- app_assoc. reflexivity.
    + unfold keys. rewrite map_app. cbn. rewrite <- app_assoc. exact HN.
    + intros k' Hk'. apply HA. right. exact Hk'.
Qed.

(** Items written by [update]: all those before the first unknown key. *)
Fixpoint known_prefix (allow : list string) (items : dict) : dict :=
  match items with
  | [] => []
  | (k, v) :: r => if in_dec string_dec k allow then (k, v) :: known_prefix allow r else []
  end.

(** Value of [k] after a list of writes. *)
Definition last_write (k : string) (ws : list (string * R)) (init : option R) : option R :=
  fold_left (fun acc kv => if string_dec k (fst kv) then Some (snd kv) else acc) ws init.

Lemma last_write_dset k d k0 v : dget k (dset k0 v d) = last_write k [(k0, v)] (dget k d).
Proof. rewrite dget_dset. cbn. destruct (string_dec k k0), (String.eqb_spec k k0); congruence. Qed.

Lemma update_writes allow items : forall d,
  fst (update allow d items) = dmerge d (known_prefix allow items) /\
  (snd (update allow d items) = Ok tt <-> (forall k, In k (keys items) -> In k allow)) /\
  (snd (update allow d items) = Ok tt \/ snd (update allow d items) = Err KeyError).
Proof.
  induction items as [|[k v] items IH]; intros d; cbn.
  - repeat split; auto. intros _ k [].
  - unfold setitem. destruct (in_dec string_dec k allow) as [H|H].
    + rewrite (proj2 (mem_In k allow) H). destruct (IH (dset k v d)) as (I1 & I2 & I3). split; [exact I1|].
      split; [|exact I3]. rewrite I2. split; [intros X k' [->|Hk']; auto|intros X k' Hk'; apply X; auto].
    + rewrite (proj2 (mem_false k allow) H). cbn. split; [reflexivity|]. split; [|auto].
      split; [discriminate|]. intros X. exfalso. apply H, X. auto.
Qed.

Lemma fold_dset_get items : forall d k,
  dget k (dmerge d items) = last_write k items (dget k d).
Proof.
  induction items as [|[k0 v] items IH]; intros d k; cbn; [reflexivity|]. rewrite IH, last_write_dset. reflexivity.
Qed.

Lemma fold_dset_keys items : forall d, (forall k, In k (keys items) -> In k (keys d)) ->
  keys (dmerge d items) = keys d.
Proof.
  induction items as [|[k0 v] items IH]; intros d H; cbn; [reflexivity|].
  assert (E : keys (dset k0 v d) = keys d).
  { rewrite keys_dset, (proj2 (mem_In k0 (keys d))) by (apply H; left; reflexivity). reflexivity. }
  rewrite IH; [exact E|]. rewrite E. intros k Hk. apply H. right. exact Hk.
Qed.

Lemma keys_dset_prefix k v d : exists e, keys (dset k v d) = keys d ++ e /\ (In k (keys d ++ e)).
Proof.
  rewrite keys_dset. destruct (mem k (keys d)) eqn:E.
  - exists []. rewrite app_nil_r. apply mem_In in E. auto.
  - exists [k]. split; [reflexivity|]. apply in_or_app. right. left. reflexivity.
Qed.

Lemma fold_dset_prefix items : forall d, exists e,
  keys (dmerge d items) = keys d ++ e /\
  (forall k, In k (keys items) -> In k (keys d ++ e)).
Proof.
  induction items as [|[k0 v] items IH]; intros d; cbn [dmerge].
  - exists []. rewrite app_nil_r. split; [reflexivity|intros k []].
  - destruct (IH (dset k0 v d)) as (e & E & HI). destruct (keys_dset_prefix k0 v d) as (e' & E' & HI').
    exists (e' ++ e). rewrite E, E', app_assoc. split; [reflexivity|].
    intros k [<-|Hk]; [apply in_or_app; auto|]. rewrite E' in HI. apply HI. exact Hk.
Qed.

Lemma known_prefix_allowed allow items k : In k (keys (known_prefix allow items)) -> In k allow.
Proof.
  induction items as [|[k0 v] items IH]; cbn; [tauto|].
  destruct (in_dec string_dec k0 allow); cbn; [|tauto]. intros [<-|H]; auto.
Qed.

Lemma set_eq_length l1 l2 : NoDup l1 -> NoDup l2 -> set_eq l1 l2 -> List.length l1 = List.length l2.
Proof. intros. apply Permutation_length, NoDup_Permutation; auto. Qed.

Lemma NoDup_HH : NoDup HH_keys.
Proof. unfold HH_keys. repeat (constructor; [cbn; intuition congruence|]). constructor. Qed.
Lemma NoDup_MKZ : NoDup MKZ_keys.
Proof. unfold MKZ_keys. repeat (constructor; [cbn; intuition congruence|]). constructor. Qed.

Lemma keys_length d : List.length (keys d) = List.length d.
Proof. apply map_length. Qed.
