(** Theorems about parameter dictionaries and their serialisation (C40, C41). *)
From Coq Require Import Reals List Bool ZArith String Lia Lra Permutation.
From Verif Require Import Base M_generic M_params P_params.
Import ListNotations.
Open Scope R_scope.
Open Scope string_scope.
Open Scope list_scope.

Lemma Forall2_weaken {A B} (P Q : A -> B -> Prop) l m : (forall a b, P a b -> Q a b) -> Forall2 P l m -> Forall2 Q l m.
Proof. intros H. induction 1; constructor; auto. Qed.

(** ** C40 *)
Theorem C40_constructor : forall allow arg,
  (arg = None -> param_init allow arg = Err TypeError) /\
  (forall d, arg = Some d -> NoDup (keys d) ->
    (set_eq (keys d) allow -> param_init allow arg = Ok d) /\
    (~ set_eq (keys d) allow -> param_init allow arg = Err KeyError)).
Proof.
  intros allow arg. split; [intros ->; reflexivity|]. intros d -> HN. unfold param_init. split; intros H.
  - rewrite (proj2 (same_keys_iff d allow) H). cbn [negb].
    rewrite update_fresh; [reflexivity|exact HN|]. intros k Hk. apply H, Hk.
  - destruct (same_keys d allow) eqn:E; [|reflexivity]. apply same_keys_iff in E. contradiction.
Qed.

(** What one operation may write: assignments and updates of known keys. *)
Definition writes (allow : list string) (o : dop) : list (string * R) :=
  match o with
  | OSet k v => if in_dec string_dec k allow then [(k, v)] else []
  | OUpdate items => known_prefix allow items
  | OIor items => items
  | _ => []
  end.
Definition ior_known (allow : list string) (o : dop) : Prop :=
  match o with OIor items => forall k, In k (keys items) -> In k allow | _ => True end.

Lemma dstep_writes allow d o : set_eq (keys d) allow ->
  fst (dstep allow d o) = dmerge d (writes allow o).
Proof.
  intros Hk. destruct o as [k v|k|k df| | |items|k v|items]; cbn; try reflexivity.
  - unfold setitem. destruct (in_dec string_dec k allow) as [H|H].
    + rewrite (proj2 (mem_In k allow) H). reflexivity.
    + rewrite (proj2 (mem_false k allow) H). reflexivity.
  - destruct (dget k d), df; reflexivity.
  - destruct d; reflexivity.
  - destruct d; reflexivity.
  - destruct (update_writes allow items d) as (E & _). rewrite <- E. destruct (update allow d items) as [d' [u|e]]; reflexivity.
  - destruct (dget k d) eqn:E; [reflexivity|]. unfold setitem.
    rewrite (proj2 (mem_false k allow)); [reflexivity|]. intros Hi. apply Hk in Hi. apply dget_In in Hi as (x & Ex). congruence.
Qed.

Lemma writes_allowed allow o k : ior_known allow o -> In k (keys (writes allow o)) -> In k allow.
Proof.
  destruct o as [k0 v|k0|k0 df| | |items|k0 v|items]; cbn; try tauto.
  - destruct (in_dec string_dec k0 allow); cbn; [intros _ [<-|[]]; auto|tauto].
  - intros _. apply known_prefix_allowed.
  - auto.
Qed.

(** Over any history of operations (in-place unions restricted to known keys) the
    keys and their order never change, and each key holds the last value assigned. *)
Theorem C40_keys_invariant : forall allow os d, set_eq (keys d) allow -> Forall (ior_known allow) os ->
  keys (druns allow d os) = keys d /\
  forall k, dget k (druns allow d os) = last_write k (List.concat (map (writes allow) os)) (dget k d).
Proof.
  intros allow os. induction os as [|o os IH]; intros d Hk Ho; [split; reflexivity|].
  apply Forall_inv in Ho as Ho1. apply Forall_inv_tail in Ho as Ho2. unfold druns in *. cbn [fold_left].
  assert (E : keys (fst (dstep allow d o)) = keys d).
  { rewrite dstep_writes by exact Hk. apply fold_dset_keys. intros k Hi. apply Hk. eapply writes_allowed; eauto. }
  destruct (IH (fst (dstep allow d o))) as [I1 I2]; [rewrite E; exact Hk|exact Ho2|].
  split; [rewrite I1; exact E|]. intros k. rewrite I2. rewrite dstep_writes by exact Hk. rewrite fold_dset_get.
  cbn [map List.concat]. unfold last_write. rewrite fold_left_app. reflexivity.
Qed.

(** Outcome of each operation on a complete, non-empty parameter set. *)
Theorem C40_outcomes : forall allow d, set_eq (keys d) allow -> d <> [] ->
  (forall k v, In k allow -> snd (dstep allow d (OSet k v)) = Ok None) /\
  (forall k v, ~ In k allow -> dstep allow d (OSet k v) = (d, Err KeyError)) /\
  (forall k, dstep allow d (ODel k) = (d, Err ValueError)) /\
  (forall k df, In k allow -> dstep allow d (OPop k df) = (d, Err ValueError)) /\
  (forall k v, ~ In k allow -> dstep allow d (OPop k (Some v)) = (d, Ok (Some v))) /\
  (forall k, ~ In k allow -> dstep allow d (OPop k None) = (d, Err KeyError)) /\
  dstep allow d OPopitem = (d, Err ValueError) /\ dstep allow d OClear = (d, Err ValueError) /\
  (forall items, (forall k, In k (keys items) -> In k allow) -> snd (dstep allow d (OUpdate items)) = Ok None) /\
  (forall items, ~ (forall k, In k (keys items) -> In k allow) -> snd (dstep allow d (OUpdate items)) = Err KeyError) /\
  (forall k v, In k allow -> exists x, dget k d = Some x /\ dstep allow d (OSetdefault k v) = (d, Ok (Some x))) /\
  (forall k v, ~ In k allow -> dstep allow d (OSetdefault k v) = (d, Err KeyError)).
Proof.
  intros allow d Hk Hd.
  assert (Hin : forall k, In k allow -> exists x, dget k d = Some x) by (intros k H; apply dget_In, Hk, H).
  assert (Hout : forall k, ~ In k allow -> dget k d = None).
  { intros k H. destruct (dget k d) eqn:E; [|reflexivity]. exfalso. apply H, Hk, dget_In. eauto. }
  repeat split; intros; cbn [dstep].
  - unfold setitem. rewrite (proj2 (mem_In _ _)) by auto. reflexivity.
  - unfold setitem. rewrite (proj2 (mem_false _ _)) by auto. reflexivity.
  - destruct (Hin k H) as (x & ->). reflexivity.
  - rewrite Hout by auto. reflexivity.
  - rewrite Hout by auto. reflexivity.
  - destruct d; [congruence|reflexivity].
  - destruct d; [congruence|reflexivity].
  - destruct (update_writes allow items d) as (_ & E & _). apply E in H. destruct (update allow d items) as [d' [u|e]]; cbn in *; congruence.
  - destruct (update_writes allow items d) as (_ & E & [X|X]); destruct (update allow d items) as [d' [u|e]]; cbn in *; try congruence.
    exfalso. apply H, E. exact X.
  - destruct (Hin k H) as (x & E). exists x. rewrite E. auto.
  - rewrite Hout by auto. unfold setitem. rewrite (proj2 (mem_false _ _)) by auto. reflexivity.
Qed.

(** A failing update keeps the items written before the unknown key. *)
Theorem C40_failed_update_stops_midway : forall allow d pre k v post, set_eq (keys d) allow ->
  (forall k, In k (keys pre) -> In k allow) -> ~ In k allow ->
  exists d', dstep allow d (OUpdate (pre ++ (k, v) :: post)) = (d', Err KeyError) /\ keys d' = keys d /\
    forall k', dget k' d' = last_write k' pre (dget k' d).
Proof.
  intros allow d pre k v post Hk Hp Hn.
  assert (E : known_prefix allow (pre ++ (k, v) :: post) = pre).
  { clear -Hp Hn. induction pre as [|[k0 v0] pre IH]; cbn.
    - destruct (in_dec string_dec k allow); [contradiction|reflexivity].
    - destruct (in_dec string_dec k0 allow) as [|X]; [|exfalso; apply X, Hp; left; reflexivity].
      rewrite IH; [reflexivity|]. intros k' H. apply Hp. right. exact H. }
  destruct (update_writes allow (pre ++ (k, v) :: post) d) as (E1 & E2 & [X|X]).
  - exfalso. apply Hn. apply (proj1 E2 X). unfold keys. rewrite map_app. apply in_or_app. right. left. reflexivity.
  - exists (fst (update allow d (pre ++ (k, v) :: post))). cbn [dstep].
    split; [destruct (update allow d _) as [d' [u|e]]; cbn in *; congruence|]. rewrite E1, E. split.
    + apply fold_dset_keys. intros k' H. apply Hk, Hp, H.
    + intros k'. apply fold_dset_get.
Qed.

(** Finding: [|=] does not check the keys, nothing can remove the unknown key
    again, and the object can never be serialised afterwards. *)
Lemma druns_prefix allow os : forall d, exists e, keys (druns allow d os) = keys d ++ e.
Proof.
  induction os as [|o os IH]; intros d; [exists []; rewrite app_nil_r; reflexivity|].
  unfold druns in *. cbn [fold_left]. destruct (IH (fst (dstep allow d o))) as (e & E).
  assert (H : exists e', keys (fst (dstep allow d o)) = keys d ++ e').
  { destruct o as [k v|k|k df| | |items|k v|items]; cbn.
    - unfold setitem. destruct (mem k allow); cbn; [destruct (keys_dset_prefix k v d) as (e' & X & _); exists e'; exact X|exists []; rewrite app_nil_r; reflexivity].
    - exists []. rewrite app_nil_r. reflexivity.
    - exists []. rewrite app_nil_r. destruct (dget k d), df; reflexivity.
    - exists []. rewrite app_nil_r. destruct d; reflexivity.
    - exists []. rewrite app_nil_r. destruct d; reflexivity.
    - destruct (update_writes allow items d) as (E' & _). destruct (fold_dset_prefix (known_prefix allow items) d) as (e' & X & _).
      rewrite <- E' in X. exists e'. destruct (update allow d items) as [d' [u|x]]; exact X.
    - destruct (dget k d); [exists []; rewrite app_nil_r; reflexivity|]. unfold setitem. destruct (mem k allow); cbn.
      + destruct (keys_dset_prefix k v d) as (e' & X & _); exists e'; exact X.
      + exists []. rewrite app_nil_r. reflexivity.
    - destruct (fold_dset_prefix items d) as (e' & X & _). eauto. }
  destruct H as (e' & E'). exists (e' ++ e). rewrite E, E', app_assoc. reflexivity.
Qed.

Theorem C40_inplace_union_bypasses_check : forall allow d items k os, NoDup (keys d) -> NoDup allow -> set_eq (keys d) allow ->
  In k (keys items) -> ~ In k allow ->
  snd (dstep allow d (OIor items)) = Ok None /\
  let d' := druns allow d (OIor items :: os) in
  In k (keys d') /\ (List.length allow < List.length d')%nat /\
  (allow = HH_keys -> hh_serialize d' = Err AssertionError) /\
  (allow = MKZ_keys -> forall b, mkz_serialize d' b = Err AssertionError).
Proof.
  intros allow d items k os HN HA Hk Hi Hn. split; [reflexivity|]. intros d'.
  assert (HL : In k (keys d') /\ (List.length allow < List.length d')%nat).
  { unfold d', druns. cbn [fold_left dstep fst].
    set (d1 := dmerge d items).
    destruct (fold_dset_prefix items d) as (e & E & HI). fold d1 in E.
    destruct (druns_prefix allow os d1) as (e' & E'). unfold druns in E'.
    assert (X : In k (keys d1)) by (rewrite E; apply HI, Hi).
    split; [rewrite E'; apply in_or_app; auto|]. rewrite <- keys_length, E', E, !app_length.
    rewrite (set_eq_length _ _ HN HA Hk). rewrite E in X. apply in_app_or in X as [X|X]; [exfalso; apply Hn, Hk, X|].
    destruct e; [destruct X|cbn; lia]. }
  destruct HL as [H1 H2]. split; [exact H1|]. split; [exact H2|]. split.
  - intros ->. unfold hh_serialize. change (9 < List.length d')%nat in H2. destruct (Nat.eqb_spec (List.length d') 9); [lia|reflexivity].
  - intros -> b. unfold mkz_serialize. change (4 < List.length d')%nat in H2. destruct (Nat.eqb_spec (List.length d') 4); [lia|reflexivity].
Qed.

(** The binary union does check: it accepts exactly unions with known keys. *)
Theorem C40_union_checks : forall allow d other, NoDup (keys d) -> set_eq (keys d) allow ->
  ((forall k, In k (keys other) -> In k allow) -> exists d', dunion allow d other = Ok d' /\ keys d' = keys d /\
      forall k, dget k d' = last_write k other (dget k d)) /\
  (forall k, In k (keys other) -> ~ In k allow -> dunion allow d other = Err KeyError).
Proof.
  intros allow d other HN Hk. unfold dunion. set (u := dmerge d other). split.
  - intros H. assert (E : keys u = keys d) by (apply fold_dset_keys; intros k X; apply Hk, H, X).
    exists u. split; [|split; [exact E|intros k; apply fold_dset_get]].
    apply (proj2 (C40_constructor allow (Some u)) u eq_refl); rewrite E; auto.
  - intros k Hi Hn. unfold param_init. destruct (same_keys u allow) eqn:E; [|reflexivity].
    apply same_keys_iff in E. exfalso. apply Hn, E. destruct (fold_dset_prefix other d) as (e & X & HI).
    fold u in X. rewrite X. apply HI, Hi.
Qed.

Definition mkz_example : dict := [("s", 1); ("gamma_ref", 2); ("Gmax", 3); ("beta", 4)].
Example C40_instance : NoDup (keys mkz_example) /\ set_eq (keys mkz_example) MKZ_keys /\
  mkz_serialize (druns MKZ_keys mkz_example [OIor [("oops", 0)]; OClear; ODel "oops"]) false = Err AssertionError /\
  mkz_serialize (druns MKZ_keys mkz_example [OSet "s" 7; OUpdate [("beta", 5); ("b", 0); ("s", 0)]; ODel "s"]) false = Ok [2; 7; 5; 3].
Proof.
  split; [unfold keys; cbn; repeat (constructor; [cbn; intuition congruence|]); constructor|].
  split; [intros k; unfold mkz_example, keys, MKZ_keys; cbn; tauto|]. split; reflexivity.
Qed.

(** ** C41 *)
Definition complete (ks : list string) (d : dict) : Prop := NoDup (keys d) /\ set_eq (keys d) ks.
Definition same_map (d1 d2 : dict) : Prop := forall k, dget k d1 = dget k d2.

Lemma complete_fetch ks d k : complete ks d -> In k ks -> exists v, dget k d = Some v.
Proof. intros [_ H] Hk. apply dget_In, H, Hk. Qed.
Lemma complete_none ks d k : complete ks d -> ~ In k ks -> dget k d = None.
Proof.
  intros [_ H] Hk. destruct (dget k d) eqn:E; [|reflexivity]. exfalso. apply Hk, H, dget_In. eauto.
Qed.

Lemma hh_serialize_ok d : complete HH_keys d -> exists a, hh_serialize d = Ok a /\ map Some a = map (fun k => dget k d) HH_keys.
Proof.
  intros H. unfold hh_serialize. rewrite <- keys_length, (set_eq_length _ _ (proj1 H) NoDup_HH (proj2 H)). cbn [HH_keys List.length Nat.eqb].
  unfold fetch. cbn [map_res HH_keys map].
  repeat match goal with |- context [dget ?k d] => let v := fresh "v" in let E := fresh "E" in
    destruct (complete_fetch _ _ k H) as (v & E); [unfold HH_keys; cbn; tauto|]; rewrite !E; cbn [bind] end.
  eexists. split; [reflexivity|]. reflexivity.
Qed.

Theorem C41_HH_roundtrip : forall d, complete HH_keys d ->
  exists a d', hh_serialize d = Ok a /\ List.length a = 9%nat /\ hh_deserialize a = Ok d' /\ complete HH_keys d' /\ same_map d' d.
Proof.
  intros d H. destruct (hh_serialize_ok d H) as (a & E & Ea). exists a.
  assert (L : List.length a = 9%nat) by (apply (f_equal (@List.length _)) in Ea; rewrite !map_length in Ea; exact Ea).
  unfold hh_deserialize. rewrite L. cbn [Nat.eqb]. eexists. split; [exact E|]. split; [reflexivity|]. split; [reflexivity|].
  do 10 (destruct a as [|? a]; try discriminate L). unfold HH_keys in Ea. cbn [map] in Ea.
  injection Ea as E1 E2 E3 E4 E5 E6 E7 E8 E9. cbn [nth]. split.
  - split; [exact NoDup_HH|]. intros k. reflexivity.
  - intros k. cbn [dget].
    repeat (match goal with |- context [String.eqb k ?x] => destruct (String.eqb_spec k x); [subst k; assumption|] end).
    symmetry. apply (complete_none HH_keys); [exact H|]. unfold HH_keys. cbn. intuition congruence.
Qed.

Theorem C41_HH_array_roundtrip : forall a,
  (List.length a = 9%nat -> exists d, hh_deserialize a = Ok d /\ complete HH_keys d /\ hh_serialize d = Ok a) /\
  (List.length a <> 9%nat -> hh_deserialize a = Err AssertionError).
Proof.
  intros a. unfold hh_deserialize. split; intros H.
  - rewrite H. cbn [Nat.eqb]. eexists. split; [reflexivity|]. split; [split; [exact NoDup_HH|intros k; reflexivity]|].
    do 10 (destruct a as [|? a]; try discriminate H). reflexivity.
  - apply Nat.eqb_neq in H. rewrite H. reflexivity.
Qed.

Lemma mkz_serialize_ok d b : complete MKZ_keys d -> exists g s be G,
  dget "gamma_ref" d = Some g /\ dget "s" d = Some s /\ dget "beta" d = Some be /\ dget "Gmax" d = Some G /\
  mkz_serialize d b = Ok (if b then [g; 0; s; be] else [g; s; be; G]).
Proof.
  intros H. unfold mkz_serialize. rewrite <- keys_length, (set_eq_length _ _ (proj1 H) NoDup_MKZ (proj2 H)). cbn [MKZ_keys List.length Nat.eqb].
  unfold fetch. cbn [map_res].
  destruct (complete_fetch _ _ "gamma_ref" H) as (g & E1); [unfold MKZ_keys; cbn; tauto|].
  destruct (complete_fetch _ _ "s" H) as (s & E2); [unfold MKZ_keys; cbn; tauto|].
  destruct (complete_fetch _ _ "beta" H) as (be & E3); [unfold MKZ_keys; cbn; tauto|].
  destruct (complete_fetch _ _ "Gmax" H) as (G & E4); [unfold MKZ_keys; cbn; tauto|].
  exists g, s, be, G. rewrite E1, E2, E3, E4. cbn. destruct b; auto 6.
Qed.

Theorem C41_MKZ_roundtrip : forall d, complete MKZ_keys d ->
  exists a d', mkz_serialize d false = Ok a /\ List.length a = 4%nat /\ mkz_deserialize a false = Ok d' /\ complete MKZ_keys d' /\ same_map d' d.
Proof.
  intros d H. destruct (mkz_serialize_ok d false H) as (g & s & be & G & E1 & E2 & E3 & E4 & E).
  eexists. eexists. split; [exact E|]. split; [reflexivity|]. split; [reflexivity|]. cbn [nth]. split.
  - split; [exact NoDup_MKZ|]. intros k. reflexivity.
  - intros k. cbn [dget].
    repeat (match goal with |- context [String.eqb k ?x] => destruct (String.eqb_spec k x); [subst k; congruence|] end).
    symmetry. apply (complete_none MKZ_keys); [exact H|]. unfold MKZ_keys. cbn. intuition congruence.
Qed.

(** File layout: [gamma_ref, 0, s, beta]; reading it back gives everything but
    [Gmax], which becomes 1. *)
Theorem C41_MKZ_file_roundtrip : forall d, complete MKZ_keys d ->
  exists a d', mkz_serialize d true = Ok a /\ nth 1 a 1 = 0 /\ mkz_deserialize a true = Ok d' /\ complete MKZ_keys d' /\
    dget "Gmax" d' = Some 1 /\ forall k, k <> "Gmax" -> dget k d' = dget k d.
Proof.
  intros d H. destruct (mkz_serialize_ok d true H) as (g & s & be & G & E1 & E2 & E3 & E4 & E).
  eexists. eexists. split; [exact E|]. split; [reflexivity|]. split; [reflexivity|]. cbn [nth].
  split; [split; [exact NoDup_MKZ|intros k; reflexivity]|]. split; [reflexivity|].
  intros k HG. cbn [dget].
  repeat (match goal with |- context [String.eqb k ?x] => destruct (String.eqb_spec k x); [subst k; congruence|] end).
  symmetry. apply (complete_none MKZ_keys); [exact H|]. unfold MKZ_keys. cbn. intuition congruence.
Qed.

(** Finding: read without [from_files], as the multi-layer class does, the file
    layout is misread. *)
Theorem C41_MKZ_file_layout_misread : forall d, complete MKZ_keys d ->
  exists a d', mkz_serialize d true = Ok a /\ mdeser MKZ a = Ok d' /\ dget "s" d' = Some 0 /\
    dget "beta" d' = dget "s" d /\ dget "Gmax" d' = dget "beta" d.
Proof.
  intros d H. destruct (mkz_serialize_ok d true H) as (g & s & be & G & E1 & E2 & E3 & E4 & E).
  eexists. eexists. split; [exact E|]. split; [reflexivity|]. cbn. auto.
Qed.

Theorem C41_MKZ_array_length : forall a b, List.length a <> 4%nat -> mkz_deserialize a b = Err AssertionError.
Proof. intros a b H. unfold mkz_deserialize. apply Nat.eqb_neq in H. rewrite H. reflexivity. Qed.

(** Multi-layer objects, both models. *)
Definition soil_model (m : model) : Prop := m = HH \/ m = MKZ.

Lemma model_facts m : soil_model m -> NoDup (mkeys m) /\ (2 <= List.length (mkeys m))%nat /\
  (forall d, complete (mkeys m) d -> exists a, mser m d = Ok a /\ List.length a = List.length (mkeys m) /\ map Some a = map (fun k => dget k d) (mkeys m)) /\
  (forall a, List.length a = List.length (mkeys m) -> mdeser m a = Ok (combine (mkeys m) a)).
Proof.
  intros [Em|Em]; subst m; cbn [mkeys mser mdeser HH MKZ].
  - split; [exact NoDup_HH|]. split; [cbn; lia|]. split.
    + intros d H. destruct (hh_serialize_ok d H) as (a & E & Ea). exists a. split; [exact E|]. split; [|exact Ea].
      apply (f_equal (@List.length _)) in Ea. rewrite !map_length in Ea. exact Ea.
    + intros a L. unfold hh_deserialize. rewrite L. cbn [HH_keys List.length Nat.eqb].
      do 10 (destruct a as [|? a]; try discriminate L). reflexivity.
  - split; [exact NoDup_MKZ|]. split; [cbn; lia|]. split.
    + intros d H. destruct (mkz_serialize_ok d false H) as (g & s & be & G & E1 & E2 & E3 & E4 & E).
      eexists. split; [exact E|]. split; [reflexivity|]. cbn. rewrite E1, E2, E3, E4. reflexivity.
    + intros a L. unfold mkz_deserialize. rewrite L. cbn [MKZ_keys List.length Nat.eqb].
      do 5 (destruct a as [|? a]; try discriminate L). reflexivity.
Qed.

Lemma dget_combine ks : forall (a : list R) (f : string -> option R), NoDup ks -> map Some a = map f ks ->
  forall k, In k ks -> dget k (combine ks a) = f k.
Proof.
  induction ks as [|k0 ks IH]; intros [|v a] f HN E k Hk; cbn in *; try discriminate; [destruct Hk|].
  injection E as E0 E1. destruct (String.eqb_spec k k0) as [->|H]; [congruence|].
  destruct Hk as [<-|Hk]; [congruence|]. apply IH; auto. inversion HN; auto.
Qed.

Lemma keys_combine ks (a : list R) : List.length a = List.length ks -> keys (combine ks a) = ks.
Proof. revert a. induction ks as [|k ks IH]; intros [|v a] L; cbn in *; try discriminate; f_equal; auto. Qed.

Lemma transposed_columns w ls (fmt : R -> R) : Forall (fun l => List.length l = w) ls ->
  map (fun j => column j (map (map Fin) (map (map fmt) (transpose_R w ls)))) (seq 0 (List.length ls)) = map (map (fun x => Fin (fmt x))) ls.
Proof.
  intros HF. apply (list_ext []); [rewrite !map_length, seq_length; reflexivity|].
  rewrite map_length, seq_length. intros j Hj. rewrite (nth_indep _ [] (column 0 (map (map Fin) (map (map fmt) (transpose_R w ls))))) by (rewrite map_length, seq_length; exact Hj).
  rewrite (map_nth (fun j => column j _)), seq_nth by exact Hj. cbn [Nat.add].
  rewrite (nth_indep _ [] (map (fun x => Fin (fmt x)) [])) by (rewrite map_length; exact Hj). rewrite (map_nth (map (fun x => Fin (fmt x)))).
  set (l := nth j ls []). assert (Hl : List.length l = w) by (eapply (proj1 (Forall_forall _ _) HF), nth_In; exact Hj).
  unfold column, transpose_R. rewrite !map_map. apply (list_ext NaN); [rewrite !map_length, seq_length; auto|].
  rewrite map_length, seq_length. intros i Hi.
  set (g := fun x => nth j (map Fin (map fmt (map (fun l0 => nth x l0 0) ls))) NaN).
  rewrite (nth_indep _ NaN (g 0%nat)) by (rewrite map_length, seq_length; exact Hi). rewrite (map_nth g), seq_nth by exact Hi.
  unfold g. cbn [Nat.add]. rewrite !map_map.
  rewrite (nth_indep _ NaN (Fin (fmt (nth i [] 0)))) by (rewrite map_length; exact Hj).
  rewrite (map_nth (fun x => Fin (fmt (nth i x 0)))). fold l.
  rewrite (nth_indep _ NaN (Fin (fmt 0))) by (rewrite map_length; lia). rewrite (map_nth (fun x => Fin (fmt x))). reflexivity.
Qed.

Lemma serialize_all m layers : soil_model m -> Forall (complete (mkeys m)) layers ->
  exists ls, map_res (mser m) layers = Ok ls /\ List.length ls = List.length layers /\
    Forall (fun l => List.length l = List.length (mkeys m)) ls /\
    Forall2 (fun l d => map Some l = map (fun k => dget k d) (mkeys m)) ls layers.
Proof.
  intros Hm. destruct (model_facts m Hm) as (_ & _ & Hs & _). induction 1 as [|d layers Hd HF IH].
  - exists []. repeat split; constructor.
  - destruct IH as (ls & E & L & F1 & F2). destruct (Hs d Hd) as (a & Ea & La & Ma).
    exists (a :: ls). cbn. rewrite Ea, E. cbn. repeat split; auto.
Qed.

Lemma rebuild_all m fmt layers ls : soil_model m ->
  Forall (fun l => List.length l = List.length (mkeys m)) ls ->
  Forall2 (fun l d => map Some l = map (fun k => dget k d) (mkeys m)) ls layers ->
  Forall (complete (mkeys m)) layers ->
  exists layers', (let! ds := map_res (fun col => mdeser m (map (fun x => match x with Fin r => r | _ => 0 end) col))
                                (map (map (fun x => Fin (fmt x))) ls) in
    map_res (fun d => param_init (mkeys m) (Some d)) ds) = Ok layers' /\
    Forall2 (fun d' d => complete (mkeys m) d' /\ forall k, dget k d' = option_map fmt (dget k d)) layers' layers.
Proof.
  intros Hm HF H2 HC. destruct (model_facts m Hm) as (HN & _ & _ & Hd).
  assert (X : exists ds, map_res (fun col => mdeser m (map (fun x => match x with Fin r => r | _ => 0 end) col))
                                (map (map (fun x => Fin (fmt x))) ls) = Ok ds /\
     map_res (fun d => param_init (mkeys m) (Some d)) ds = Ok ds /\
     Forall2 (fun d' d => complete (mkeys m) d' /\ forall k, dget k d' = option_map fmt (dget k d)) ds layers).
  { induction H2 as [|l d ls layers Hl H2 IH]; [exists []; repeat split; constructor|].
    pose proof (Forall_inv HF) as L. destruct (IH (Forall_inv_tail HF) (Forall_inv_tail HC)) as (ds & E1 & E2 & F2). clear IH.
    pose proof (Forall_inv HC) as Cd. cbn beta in L.
    assert (Hmap : map (fun x => match x with Fin r => r | _ => 0 end) (map (fun x => Fin (fmt x)) l) = map fmt l).
    { rewrite map_map. apply map_ext. reflexivity. }
    assert (L' : List.length (map fmt l) = List.length (mkeys m)) by (rewrite map_length; exact L).
    assert (C' : complete (mkeys m) (combine (mkeys m) (map fmt l))).
    { split; rewrite keys_combine by exact L'; [exact HN|]. intros k. reflexivity. }
    exists (combine (mkeys m) (map fmt l) :: ds). cbn [map map_res]. rewrite Hmap, Hd by exact L'. rewrite E1. cbn [bind].
    split; [reflexivity|]. split.
    - rewrite (proj1 (proj2 (C40_constructor (mkeys m) _) _ eq_refl (proj1 C')) (proj2 C')). cbn [bind]. rewrite E2. reflexivity.
    - constructor; [|exact F2]. split; [exact C'|]. intros k. destruct (in_dec string_dec k (mkeys m)) as [Hk|Hk].
      + apply (dget_combine (mkeys m) _ (fun k => option_map fmt (dget k d))); auto.
        rewrite map_map. rewrite <- (map_map (fun k => dget k d) (option_map fmt)). rewrite <- Hl, map_map. reflexivity.
      + rewrite (complete_none _ _ k C' Hk), (complete_none _ _ k Cd Hk). reflexivity. }
  destruct X as (ds & E1 & E2 & F2). exists ds. rewrite E1. cbn [bind]. auto.
Qed.

Lemma multi_core m fmt layers : soil_model m -> Forall (complete (mkeys m)) layers ->
  exists rows layers', save_txt m fmt layers = Ok (List.length layers, rows) /\ List.length rows = List.length (mkeys m) /\
    multi_from_array m (List.length layers) rows = Ok layers' /\
    Forall2 (fun d' d => complete (mkeys m) d' /\ forall k, dget k d' = option_map fmt (dget k d)) layers' layers.
Proof.
  intros Hm HC. destruct (serialize_all m layers Hm HC) as (ls & E & L & F1 & F2).
  destruct (rebuild_all m fmt layers ls Hm F1 F2 HC) as (layers' & E' & F').
  unfold save_txt, serialize_2D. rewrite E. cbn [bind fst snd].
  eexists. exists layers'. split; [reflexivity|]. split; [unfold transpose_R; rewrite !map_length, seq_length; reflexivity|].
  split; [|exact F']. unfold multi_from_array, extract_from_param_format. cbn [bind]. rewrite <- L. rewrite transposed_columns by exact F1. exact E'.
Qed.

Theorem C41_multilayer_roundtrip : forall m layers, soil_model m -> Forall (complete (mkeys m)) layers ->
  exists rows layers', serialize_2D m layers = Ok (List.length layers, rows) /\
    multi_from_array m (List.length layers) rows = Ok layers' /\ Forall2 same_map layers' layers.
Proof.
  intros m layers Hm HC. destruct (multi_core m (fun x => x) layers Hm HC) as (rows & layers' & E & _ & E' & F').
  unfold save_txt in E. apply bind_ok in E as ([c rows0] & E0 & E). injection E as -> <-. cbn [snd] in *.
  assert (Hid : map (map (fun x : R => x)) rows0 = rows0).
  { rewrite <- (map_id rows0) at 2. apply map_ext. intros l. apply map_id. }
  rewrite Hid in E'. exists rows0, layers'. split; [exact E0|]. split; [exact E'|].
  eapply Forall2_weaken; [|exact F']. cbn. intros d' d [_ H] k. rewrite H. destruct (dget k d); reflexivity.
Qed.

(** Through a text file: exact up to the printed precision for two layers or more,
    but a file with one layer cannot be read back. *)
Theorem C41_multilayer_file : forall m fmt layers, soil_model m -> Forall (complete (mkeys m)) layers -> layers <> [] ->
  exists rows, save_txt m fmt layers = Ok (List.length layers, rows) /\
    (List.length layers = 1%nat -> multi_from_file m 1 rows = Err TypeError) /\
    ((2 <= List.length layers)%nat -> exists layers', multi_from_file m (List.length layers) rows = Ok layers' /\
       Forall2 (fun d' d => forall k, dget k d' = option_map fmt (dget k d)) layers' layers).
Proof.
  intros m fmt layers Hm HC Hne. destruct (multi_core m fmt layers Hm HC) as (rows & layers' & E & L & E' & F').
  exists rows. split; [exact E|]. split; intros H.
  - reflexivity.
  - exists layers'. unfold multi_from_file, genfromtxt. destruct (model_facts m Hm) as (_ & Hw & _).
    rewrite (proj2 (Nat.leb_gt _ _)) by lia. rewrite (proj2 (Nat.leb_gt (List.length rows) 1)) by lia. cbn [orb].
    split; [exact E'|]. eapply Forall2_weaken; [|exact F']. cbn. tauto.
Qed.

Example C41_instance : complete MKZ_keys mkz_example /\
  mkz_serialize mkz_example true = Ok [2; 0; 1; 4] /\
  serialize_2D MKZ [mkz_example; mkz_example] = Ok (2%nat, [[2; 2]; [1; 1]; [4; 4]; [3; 3]]).
Proof.
  split; [split; apply C40_instance|]. split; reflexivity.
Qed.
