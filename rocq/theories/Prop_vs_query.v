(** Theorems about Vs_Profile: aliasing of the depth array (C68), profiles
    returned by queries (C69), exports (C70). *)
From Coq Require Import Reals List Bool ZArith Lia Lra.
From Verif Require Import Base M_generic P_generic M_profile P_profile M_vs_profile P_vs_profile
  Prop_profile Prop_vs_profile.
Import ListNotations.
Open Scope R_scope.

(** ** C68 later writes to the caller's array *)
Theorem C68_depth_array_aliases_caller : forall h loc du ru hs f h' o i x,
  (loc < length h)%nat -> table_wf (tbl h loc) -> t_int (tbl h loc) = false ->
  vs_init h loc du ru hs f = (h', Ok o) -> (i < length (t_rows (tbl h loc)))%nat ->
  let h'' := write_thk h' loc i x in
  o_rows h'' o = o_rows h' o /\
  get_depth_array h'' o =
    (if hs && negb (Reqb (last (map (cell 0) (t_rows (tbl h loc))) 0) 0)
     then get_depth_array h' o
     else thk2dep (set_nth i x (map (cell 0) (o_rows h' o))) false).
Proof.
  intros h loc du ru hs f h' o i x Hl Hw Hint E Hi h''.
  pose proof (init_thks _ _ _ _ _ _ _ _ Hl Hw E) as Hthk.
  destruct (init_inv _ _ _ _ _ _ _ _ Hl Hw E) as (Hv & Hd & Hr & _ & Hh & Hrows & Ht & Hk & _).
  assert (HL : length (caller_after h loc du ru) = length h)
    by (unfold caller_after; destruct (inplace _ _ _); [apply set_nth_length|reflexivity]).
  assert (Hl' : (loc < length h')%nat) by (rewrite Hh, app_length; lia).
  assert (Eoth : forall l, l <> loc -> tbl h'' l = tbl h' l).
  { intros l Hne. unfold h'', write_thk, tbl. apply set_nth_other; auto. }
  split.
  - unfold o_rows. rewrite Eoth by lia. reflexivity.
  - fold (appends (tbl h loc) hs). unfold get_depth_array. destruct (appends (tbl h loc) hs) eqn:EA.
    + unfold o_thks. rewrite Eoth by (rewrite Hk; lia). reflexivity.
    + f_equal. rewrite <- Hthk. unfold o_thks. rewrite Hk. unfold h'', write_thk, tbl at 1.
      rewrite set_nth_same by auto. cbn [t_rows].
      assert (Hint' : t_int (tbl h' loc) = false).
      { rewrite Hh, tbl_alloc_old by lia. unfold caller_after. destruct (inplace _ _ _); [|exact Hint].
        unfold tbl. rewrite set_nth_same by auto. reflexivity. }
      rewrite Hint'. cbn [store].
      assert (Hwf : Forall (fun r => (1 <= length r)%nat) (t_rows (tbl h' loc)) /\
                    length (t_rows (tbl h' loc)) = length (t_rows (tbl h loc))).
      { assert (Hw1 : Forall (fun r => (1 <= length r)%nat) (t_rows (tbl h loc))).
        { destruct Hv as (five & Hc & _). unfold table_wf in Hw. eapply Forall_impl; [|exact Hw].
          cbn. intros r ->. rewrite Hc. destruct five; lia. }
        rewrite Hh, tbl_alloc_old by lia. unfold caller_after. destruct (inplace _ _ _); [|auto].
        unfold tbl. rewrite set_nth_same by auto. cbn [t_rows]. rewrite map_length. split; [|reflexivity].
        rewrite Forall_map. eapply Forall_impl; [|exact Hw1]. cbn. intros r H1.
        unfold convert_row. destruct du, ru; rewrite ?set_nth_length; auto. }
      destruct Hwf as [Hwf Hlen]. clear -Hwf Hlen Hi.
      assert (Hi2 : (i < length (t_rows (tbl h' loc)))%nat) by lia. clear Hi Hlen.
      revert i Hi2. induction Hwf as [|r rs H1 HF IH]; intros [|i] Hi2; cbn in *; try lia.
      * f_equal. destruct r; [cbn in H1; lia|reflexivity].
      * f_equal. apply IH. lia.
Qed.

Example C68_instance : exists h' o,
  vs_init [mktable false 2 [[10; 200]; [0; 400]]] 0 D_1 R_kg true 3 = (h', Ok o) /\
  get_depth_array (write_thk h' 0 0 3) o = Ok [0; 0 + 3] /\ o_zmax o = 10.
Proof.
  set (t := mktable false 2 [[10; 200]; [0; 400]]).
  assert (Hv : valid_table t).
  { exists false. split; [reflexivity|]. exists [[10; 200]], [0; 400]. split; [reflexivity|]. split.
    - constructor; [|constructor]. exists 10, 200, []. repeat split; lra.
    - exists 0, 400, []. repeat split; lra. }
  assert (Hw : table_wf (tbl [t] 0)) by (repeat constructor).
  destruct (proj2 (C08_accepts_iff [t] 0 D_1 R_kg true 3 (lt01 _) Hw)) as (h' & o & E).
  { repeat split; auto; try discriminate. intros [H _]; discriminate. }
  exists h', o. split; [exact E|].
  destruct (init_inv _ _ _ _ _ _ _ _ (lt01 _) Hw E) as (_ & _ & _ & _ & _ & Hrows & _ & _ & _ & Hz & _).
  assert (HL : map (cell 0) (o_rows h' o) = [10; 0]).
  { rewrite Hrows, <- thk_of_layers, layers_of_final by auto. unfold appends. cbn.
    rewrite (proj2 (Reqb_true 0 0) eq_refl). reflexivity. }
  destruct (C68_depth_array_aliases_caller _ _ _ _ _ _ _ _ 0 3 (lt01 _) Hw eq_refl E ltac:(cbn; lia)) as [_ HD].
  rewrite HD, HL. cbn [t_rows tbl nth t map last cell andb]. rewrite (proj2 (Reqb_true 0 0) eq_refl). cbn.
  split; [reflexivity|]. rewrite Hz, <- Hrows, HL. cbn. lra.
Qed.

(** ** C69 profiles returned by queries *)

Definition table2 (thk vs : list R) : list (list R) := map (fun tv => [fst tv; snd tv]) (combine thk vs).

Lemma layers_of_table2 thk : forall vs, layers_of (table2 thk vs) = combine thk vs.
Proof. induction thk as [|a thk IH]; intros [|v vs]; cbn; f_equal. apply IH. Qed.

Lemma combine_thk thk : forall vs, length thk = length vs -> thk_of (combine thk vs) = thk.
Proof. induction thk as [|a thk IH]; intros [|v vs] H; cbn in *; try discriminate; f_equal. apply IH. lia. Qed.
Lemma combine_vs thk : forall vs, length thk = length vs -> vs_of (combine thk vs) = vs.
Proof. induction thk as [|a thk IH]; intros [|v vs] H; cbn in *; try discriminate; f_equal. apply IH. lia. Qed.

Lemma table2_good thk : forall vs, length thk = length vs -> thk <> [] -> interior_pos thk -> 0 <= last thk 0 ->
  Forall (fun v => 0 < v) vs -> good_rows false (table2 thk vs).
Proof.
  intros vs HL Hne Hi H0 HV.
  assert (Hlen : length (table2 thk vs) = length thk) by (unfold table2; rewrite map_length, combine_length; lia).
  apply good_rows_nth.
  - intros E. rewrite E in Hlen. destruct thk; [congruence|discriminate].
  - intros k Hk. rewrite Hlen in *.
    assert (En : nth k (table2 thk vs) [] = [nth k thk 0; nth k vs 0]).
    { unfold table2. rewrite (nth_indep _ [] ((fun tv : R * R => [fst tv; snd tv]) (0, 0))) by (rewrite map_length, combine_length; lia).
      rewrite (map_nth (fun tv : R * R => [fst tv; snd tv])), combine_nth by auto. reflexivity. }
    rewrite En. exists (nth k thk 0), (nth k vs 0), []. split; [reflexivity|]. split; [|split; [|reflexivity]].
    + destruct (Nat.eqb_spec (S k) (length thk)).
      * destruct (exists_last Hne) as (l & a & El). rewrite El in *. rewrite last_last in H0.
        rewrite app_length in *. cbn in *. rewrite app_nth2 by lia. replace (k - length l)%nat with 0%nat by lia. exact H0.
      * destruct (removelast_nth thk k 0 ltac:(lia)) as [_ Hin]. unfold interior_pos in Hi.
        rewrite Forall_forall in Hi. apply Hi, Hin.
    + rewrite Forall_forall in HV. apply HV, nth_In. lia.
Qed.

(** Build a profile from freshly stacked columns. *)
Lemma build_profile h thk vs hs : length thk = length vs -> thk <> [] -> interior_pos thk -> 0 <= last thk 0 ->
  Forall (fun v => 0 < v) vs ->
  exists h' o', vs_init (h ++ [mktable false 2 (table2 thk vs)]) (length h) D_1 R_kg hs 3 = (h', Ok o') /\
    coherent h' o' /\ o_zmax o' = rsum thk /\
    (layers_of (o_rows h' o') = combine thk vs \/
     (hs = true /\ last thk 0 <> 0 /\ layers_of (o_rows h' o') = combine thk vs ++ [(0, last vs 0)])) /\
    (forall l, (l < length h)%nat -> tbl h' l = tbl h l).
Proof.
  intros HL Hne Hi H0 HV.
  pose proof (table2_good _ _ HL Hne Hi H0 HV) as Hg.
  set (t := mktable false 2 (table2 thk vs)). set (h1 := h ++ [t]).
  assert (Et : tbl h1 (length h) = t) by apply tbl_alloc_new.
  assert (Hl : (length h < length h1)%nat) by (unfold h1; rewrite app_length; cbn; lia).
  assert (Hw : table_wf (tbl h1 (length h))) by (rewrite Et; exact (good_rows_wf _ _ Hg)).
  destruct (proj2 (C08_accepts_iff h1 (length h) D_1 R_kg hs 3 Hl Hw)) as (h' & o & E).
  { rewrite Et. repeat split; try discriminate; [exists false; split; [reflexivity|exact Hg]|].
    intros [H _]; discriminate. }
  exists h', o. split; [exact E|].
  destruct (C08_constructed_profile _ _ _ _ _ _ _ _ Hl Hw E) as (Hb & _ & _ & Hz & _).
  destruct (C08_table_is_valid _ _ _ _ _ _ _ _ Hl Hw ltac:(auto) E) as [_ Hco].
  { rewrite Et. intros (_ & H & _); discriminate. }
  destruct (C09_caller_array _ _ _ _ _ _ _ _ Hl Hw E) as [_ Hoth].
  rewrite Et in *. cbn [t_rows t] in *. rewrite layers_of_table2, combine_thk, combine_vs in * by auto.
  split; [exact Hco|]. split; [exact Hz|]. split; [exact Hb|].
  intros l Hll. rewrite Hoth by lia. unfold h1. apply tbl_alloc_old; auto.
Qed.

(** Strictly increasing sequences, by position. *)
Definition increasing (l : list R) : Prop :=
  forall i j, (i < j)%nat -> (j < length l)%nat -> nth i l 0 < nth j l 0.

Lemma increasing_cons a b l : increasing (a :: b :: l) <-> a < b /\ increasing (b :: l).
Proof.
  split.
  - intros H. split; [apply (H 0 1)%nat; cbn; lia|].
    intros i j Hij Hj. apply (H (S i) (S j)); cbn in *; lia.
  - intros [H1 H2] i j Hij Hj. destruct j as [|j]; [lia|]. destruct i as [|i].
    + destruct j as [|j]; [exact H1|]. specialize (H2 0 (S j) ltac:(lia) ltac:(cbn in *; lia))%nat. cbn in *. lra.
    + apply (H2 i j); cbn in *; lia.
Qed.

Lemma sorted_flags l : is_sorted l = true /\ has_adjacent_dup l = false <-> increasing l.
Proof.
  induction l as [|a l IH].
  { split; auto. intros _ i j Hij Hj. cbn in Hj. lia. }
  destruct l as [|b l].
  { split; auto. intros _ i j Hij Hj. cbn in Hj. lia. }
  rewrite increasing_cons, <- IH. change (is_sorted (a :: b :: l)) with (Rleb 0 (b - a) && is_sorted (b :: l)).
  change (has_adjacent_dup (a :: b :: l)) with (Reqb (b - a) 0 || has_adjacent_dup (b :: l)).
  rewrite andb_true_iff, orb_false_iff, Rleb_true, Reqb_false. split.
  - intros ((H1 & H2) & H3 & H4). repeat split; auto. lra.
  - intros (H1 & H2 & H3). repeat split; auto; lra.
Qed.

Lemma diffs0_interior z : increasing z -> interior_pos (diffs0 z) /\ last (diffs0 z) 0 = 0.
Proof.
  induction z as [|a z IH]; intros H; [split; [constructor|reflexivity]|].
  destruct z as [|b z]; [split; [constructor|reflexivity]|].
  apply increasing_cons in H as [H1 H2]. destruct (IH H2) as [IH1 IH2].
  change (diffs0 (a :: b :: z)) with ((b - a) :: diffs0 (b :: z)).
  assert (Hne : diffs0 (b :: z) <> []) by (destruct z; discriminate).
  destruct (diffs0 (b :: z)) as [|c ds] eqn:ED; [congruence|]. split.
  - unfold interior_pos in *. change (removelast (b - a :: c :: ds)) with ((b - a) :: removelast (c :: ds)).
    constructor; [lra|exact IH1].
  - exact IH2.
Qed.

Lemma top_diffs0 z k : (k < length z)%nat -> top (diffs0 (0 :: z)) k = nth k (0 :: z) 0.
Proof.
  intros Hk. pose proof (z_top_diffs0 z 0) as HZ. apply (f_equal (fun l => nth k l 0)) in HZ.
  rewrite z_top_nth in HZ by (rewrite diffs0_length; cbn; lia). rewrite <- HZ. unfold top. lra.
Qed.

Lemma top_diffs0' z k : (k < S (length z))%nat -> top (diffs0 (0 :: z)) k = nth k (0 :: z) 0.
Proof.
  intros Hk. pose proof (z_top_diffs0 z 0) as HZ. apply (f_equal (fun l => nth k l 0)) in HZ.
  rewrite z_top_nth in HZ by (rewrite diffs0_length; cbn; lia). rewrite <- HZ. unfold top. lra.
Qed.

(** Depth query as a profile: interfaces exactly at the requested depths (and at
    the surface), and the result answers the same query with the same values. *)
Theorem C69_query_as_profile : forall h o ds, coherent h o -> ds <> [] ->
  Forall (fun d => 0 <= d) ds -> increasing ds ->
  exists h' o' vs, query_as_profile h o ds = (h', Ok o') /\ coherent h' o' /\
    query_Vs_at_depth (layers_of (o_rows h o)) ds = Ok vs /\
    (exists z, get_depth_array h' o' = Ok z /\ z = (if Reqb (hd 0 ds) 0 then ds else 0 :: ds)) /\
    query_Vs_at_depth (layers_of (o_rows h' o')) ds = Ok vs /\
    o_zmax o' = last ds 0 /\
    (forall l, (l < length h)%nat -> tbl h' l = tbl h l).
Proof.
  intros h o ds Hco Hne Hnn Hinc.
  set (p := layers_of (o_rows h o)).
  destruct Hco as (Hol & Hoc & Hg & Hot).
  assert (Hp : p <> []) by (unfold p; apply good_rows_ne in Hg; destruct (o_rows h o); [congruence|discriminate]).
  destruct (query_Vs_at_depth_spec p ds Hp Hnn) as (vs & Evs & HF).
  assert (HL : length ds = length vs) by (clear -HF; induction HF; cbn; auto).
  assert (HVpos : Forall (fun v => 0 < v) vs).
  { pose proof (good_rows_cells _ _ Hg) as HC. clear -HF HC.
    induction HF as [|d v ds vs (k & _ & Hk) HF IH]; [constructor|]. constructor; auto.
    apply nth_error_In in Hk. unfold p in Hk. rewrite vs_of_layers in Hk. apply in_map_iff in Hk as (r & <- & Hr).
    rewrite Forall_forall in HC. apply HC, Hr. }
  pose proof (proj2 (sorted_flags ds) Hinc) as [Hs Hdup].
  unfold query_as_profile. fold p. rewrite Evs, Hs, Hdup. cbn [negb].
  assert (E0 : existsb (fun d => Reqb d 0) ds = Reqb (hd 0 ds) 0).
  { destruct ds as [|d ds]; [congruence|]. cbn [existsb hd].
    destruct (Reqb_spec d 0) as [|Hd]; [reflexivity|]. cbn [orb].
    apply not_true_is_false. intros HE. apply existsb_exists in HE as (x & Hin & Hx). apply Reqb_true in Hx. subst x.
    apply (In_nth _ _ 0) in Hin as (k & Hk & Ek). pose proof (Hinc 0 (S k) ltac:(lia) ltac:(cbn; lia))%nat as HI.
    cbn in HI. rewrite Ek in HI. inversion Hnn; subst. lra. }
  rewrite E0. set (has0 := Reqb (hd 0 ds) 0) in *.
  set (z := if has0 then ds else 0 :: ds). set (vs' := if has0 then vs else firstn 1 vs ++ vs).
  assert (Hz0 : exists z', z = 0 :: z').
  { unfold z, has0. destruct (Reqb_spec (hd 0 ds) 0) as [E|E]; [|eauto].
    destruct ds as [|d ds]; [congruence|]. cbn in E. subst d. eauto. }
  destruct Hz0 as (z' & Ez).
  assert (Hzinc : increasing z).
  { unfold z, has0. destruct (Reqb_spec (hd 0 ds) 0) as [E|E]; [exact Hinc|].
    destruct ds as [|d ds]; [congruence|]. apply increasing_cons. split; [|exact Hinc].
    cbn in E. inversion Hnn; subst. lra. }
  assert (HLv : length z = length vs').
  { unfold z, vs'. destruct has0; [exact HL|]. destruct vs; [destruct ds; [congruence|discriminate]|].
    cbn in *. lia. }
  assert (Ed : dep2thk z true = Ok (diffs0 z)).
  { rewrite Ez. unfold dep2thk, get. cbn. rewrite (proj2 (Reqb_true 0 0) eq_refl). reflexivity. }
  rewrite Ed, diffs0_length, HLv, Nat.eqb_refl. cbn [negb]. unfold alloc.
  destruct (diffs0_interior z Hzinc) as [Hint Hlast].
  assert (HV' : Forall (fun v => 0 < v) vs').
  { unfold vs'. destruct has0; auto. destruct vs as [|v vs]; [constructor|]. cbn. inversion HVpos; subst. auto. }
  destruct (build_profile h (diffs0 z) vs' false) as (h' & o' & E & Hco' & Hzm & Hlay & Hoth); auto.
  { rewrite diffs0_length; exact HLv. }
  { rewrite Ez. destruct z'; discriminate. }
  { lra. }
  destruct Hlay as [Hlay|(H & _)]; [|discriminate].
  exists h', o', vs. split; [exact E|]. split; [exact Hco'|]. split; [reflexivity|].
  assert (Hthk : o_thks h' o' = diffs0 z).
  { destruct Hco' as (_ & _ & _ & ->). rewrite <- thk_of_layers, Hlay. apply combine_thk. rewrite diffs0_length; exact HLv. }
  assert (Htopz : forall k, (k < length z)%nat -> top (diffs0 z) k = nth k z 0).
  { intros k Hk. rewrite Ez in *. apply top_diffs0'. cbn in Hk. lia. }
  split.
  { exists z. split; [|reflexivity]. unfold get_depth_array. rewrite Hthk, thk2dep_top.
    - rewrite Ez. f_equal. apply z_top_diffs0.
    - rewrite Ez. destruct z'; discriminate. }
  split; [|split; [|exact Hoth]].
  - (* re-query *)
    set (p' := layers_of (o_rows h' o')). 
    assert (Ethk' : thk_of p' = diffs0 z) by (unfold p'; rewrite Hlay; apply combine_thk; rewrite diffs0_length; exact HLv).
    assert (Evs' : vs_of p' = vs') by (unfold p'; rewrite Hlay; apply combine_vs; rewrite diffs0_length; exact HLv).
    assert (Hp' : p' <> []) by (intros EE; rewrite EE in Ethk'; rewrite Ez in Ethk'; destruct z'; discriminate).
    destruct (query_Vs_at_depth_spec p' ds Hp' Hnn) as (w & Ew & HF').
    rewrite Ew. f_equal.
    assert (HLw : length ds = length w) by (clear -HF'; induction HF'; cbn; auto).
    apply (list_ext 0 w vs); [lia|]. intros k Hk. rewrite <- HLw in Hk.
    (* position of ds_k in z *)
    set (k' := if has0 then k else S k).
    assert (Hk'z : (k' < length z)%nat /\ nth k' z 0 = nth k ds 0 /\ nth k' vs' 0 = nth k vs 0).
    { unfold k', z, vs'. destruct has0; [auto|]. cbn. repeat split; [lia|].
      destruct vs as [|v vs]; [destruct ds; [congruence|discriminate]|]. reflexivity. }
    destruct Hk'z as (Hk' & Ezk & Evk).
    assert (HFk : forall ds w, Forall2 (fun d v => exists j, contains (thk_of p') d j /\ nth_error (vs_of p') j = Some v) ds w ->
       (k < length ds)%nat -> exists j, contains (thk_of p') (nth k ds 0) j /\ nth_error (vs_of p') j = Some (nth k w 0)).
    { clear. intros ds w H. revert k. induction H as [|d v ds w Hh H IH]; cbn; intros [|k] Hk; try lia; auto. apply IH; lia. }
    destruct (HFk _ _ HF' Hk) as (j & Hc & Hj).
    assert (Hck : contains (thk_of p') (nth k ds 0) k').
    { rewrite Ethk'. split; [rewrite diffs0_length; exact Hk'|]. split.
      - rewrite Htopz by auto. lra.
      - rewrite diffs0_length. intros HS. rewrite Htopz by auto. rewrite <- Ezk. apply Hzinc; lia. }
    rewrite Ethk' in Hc, Hck. pose proof (contains_unique _ _ _ _ Hint Hc Hck). subst j.
    rewrite Evs' in Hj. apply (nth_error_nth _ _ 0) in Hj. rewrite <- Hj. exact Evk.
  - rewrite Hzm. assert (Hdne : diffs0 z <> []) by (rewrite Ez; destruct z'; discriminate).
    rewrite (top_last _ Hdne), Hlast, diffs0_length, Htopz by (rewrite Ez; cbn; lia).
    replace (last ds 0) with (last z 0).
    + rewrite Rplus_0_r. destruct (exists_last (l := z)) as (l & a & El); [rewrite Ez; discriminate|].
      rewrite El, last_last, app_length. cbn. rewrite app_nth2 by lia. replace (length l + 1 - 1 - length l)%nat with 0%nat by lia. reflexivity.
    + unfold z. destruct has0; [reflexivity|]. destruct ds; [congruence|reflexivity].
Qed.

(** The other inputs are rejected and nothing changes. *)
Theorem C69_query_as_profile_rejects : forall h o ds, coherent h o ->
  ~ (ds <> [] /\ Forall (fun d => 0 <= d) ds /\ increasing ds) ->
  query_as_profile h o ds = (h, Err ValueError).
Proof.
  intros h o ds Hco Hn. unfold query_as_profile. set (p := layers_of (o_rows h o)).
  destruct Hco as (_ & _ & Hg & _).
  assert (Hp : p <> []) by (unfold p; apply good_rows_ne in Hg; destruct (o_rows h o); [congruence|discriminate]).
  destruct (Forall_dec (fun d => 0 <= d) (fun d => Rle_dec 0 d) ds) as [HF|HF].
  - destruct (query_Vs_at_depth_spec p ds Hp HF) as (vs & Evs & HF2). rewrite Evs.
    destruct (is_sorted ds) eqn:Es; [|reflexivity]. cbn [negb].
    destruct (has_adjacent_dup ds) eqn:Ed; [reflexivity|].
    destruct ds as [|d ds].
    + inversion HF2; subst. cbn. rewrite (proj2 (Reqb_true 0 0) eq_refl). reflexivity.
    + exfalso. apply Hn. repeat split; [discriminate|exact HF|]. apply sorted_flags; auto.
  - apply neg_Forall_Exists_neg in HF; [|intros; apply Rle_dec].
    apply Exists_exists in HF as (d & Hin & Hd). rewrite (query_negative p ds d Hin) by lra. reflexivity.
Qed.

(** Layer count inferred from a scalar thickness: it covers the whole profile. *)
Theorem C69_inferred_layer_count : forall h o thk mid hs, coherent h o -> 0 < thk -> 0 < o_zmax o ->
  exists n vs, (0 < n)%nat /\ INR (n - 1) * thk < o_zmax o <= INR n * thk /\
    class_query_given_thk h o (ThkScalar thk None) mid = Ok vs /\ length vs = n /\
    (forall k, (k < n)%nat -> query_Vs_at_depth (layers_of (o_rows h o))
         [INR k * thk + (if mid : bool then thk / 2 else 0)] = Ok [nth k vs 0]) /\
    exists h' o', class_query_given_thk_profile h o (ThkScalar thk None) mid hs = (h', Ok o') /\
      coherent h' o' /\ o_zmax o' = INR n * thk /\
      (layers_of (o_rows h' o') = combine (repeat thk n) vs ++ (if hs then [(0, last vs 0)] else [])).
Proof.
  intros h o thk mid hs Hco Ht Hz.
  pose proof (ceil_spec (o_zmax o / thk)) as [Hc1 Hc2].
  set (z := ceil (o_zmax o / thk)) in *.
  assert (Hq : 0 < o_zmax o / thk) by (apply Rdiv_lt_0_compat; lra).
  assert (Hzpos : (0 < z)%Z) by (apply lt_IZR; lra).
  set (n := Z.to_nat z).
  assert (HINR : INR n = IZR z) by (rewrite INR_IZR_INZ; unfold n; rewrite Z2Nat.id by lia; reflexivity).
  assert (Hn : (0 < n)%nat) by (unfold n; lia).
  assert (HINR1 : INR (n - 1) = IZR z - 1) by (rewrite minus_INR by lia; rewrite HINR; reflexivity).
  set (ta := repeat thk n).
  assert (Hta : ta <> []) by (unfold ta; destruct n; [lia|discriminate]).
  assert (Hlta : length ta = n) by apply repeat_length.
  assert (HFta : Forall (fun h => 0 < h) ta) by (apply Forall_forall; intros x Hx; apply repeat_spec in Hx; lra).
  assert (HFta0 : Forall (fun h => 0 <= h) ta) by (eapply Forall_impl; [|exact HFta]; cbn; intros; lra).
  assert (Hnth : forall k, (k < n)%nat -> nth k ta 0 = thk).
  { intros k Hk. rewrite (nth_indep _ 0 thk) by lia. apply nth_repeat. }
  assert (Hlast : last ta 0 = thk).
  { destruct (exists_last Hta) as (l & a & El). rewrite El, last_last.
    assert (In a ta) by (rewrite El; apply in_app_iff; cbn; auto). apply repeat_spec in H. auto. }
  assert (Hfn : forall k, (k <= n)%nat -> rsum (firstn k ta) = INR k * thk).
  { intros k Hk. replace (firstn k ta) with (repeat thk k).
    - apply rsum_repeat.
    - unfold ta. clear -Hk. revert k Hk; induction n as [|n IH]; intros [|k] Hk; cbn; auto; try lia. f_equal. apply IH. lia. }
  set (p := layers_of (o_rows h o)).
  destruct Hco as (Hol & Hoc & Hg & Hot).
  assert (Hp : p <> []) by (unfold p; apply good_rows_ne in Hg; destruct (o_rows h o); [congruence|discriminate]).
  destruct (C03_query_given_thk p ta mid Hp Hta HFta0) as (vs & Evs & Hvs & HLv).
  rewrite Hlast, (proj2 (Reqb_false thk 0)) in HLv by lra. rewrite andb_false_r, Hlta in HLv.
  assert (EQ : query_Vs_given_thk p (class_thk_arg o (ThkScalar thk None)) mid = Ok (vs, ta)).
  { unfold class_thk_arg, infer_n_layers. fold z. rewrite C03_scalar_needs_layer_count.
    destruct (Z.leb_spec z 0); [lia|]. exact Evs. }
  exists n, vs. split; [exact Hn|]. split.
  { rewrite HINR1, HINR. split.
    - apply (Rmult_lt_reg_r (/ thk)); [apply Rinv_0_lt_compat; lra|]. field_simplify; try lra.
    - apply (Rmult_le_reg_r (/ thk)); [apply Rinv_0_lt_compat; lra|]. field_simplify; try lra. }
  split. { unfold class_query_given_thk. fold p. rewrite EQ. reflexivity. }
  split; [exact HLv|]. split.
  { intros k Hk. destruct (Hvs k ltac:(lia)) as (j & Hc & Hj).
    rewrite Hfn, Hnth in Hc by lia. apply (query_contains p _ j); auto.
    - unfold p. rewrite thk_of_layers. apply good_rows_interior, Hg.
    - pose proof (pos_INR k). assert (0 <= INR k * thk) by (apply Rmult_le_pos; lra). destruct mid; lra. }
  assert (HVpos : Forall (fun v => 0 < v) vs).
  { apply Forall_forall. intros v Hv. apply (In_nth _ _ 0) in Hv as (k & Hk & <-).
    destruct (Hvs k Hk) as (j & _ & Hj). apply nth_error_In in Hj. unfold p in Hj. rewrite vs_of_layers in Hj.
    apply in_map_iff in Hj as (r & <- & Hr). pose proof (good_rows_cells _ _ Hg) as HC.
    rewrite Forall_forall in HC. apply HC, Hr. }
  destruct (build_profile h ta vs hs) as (h' & o' & E & Hco' & Hzm & Hlay & _); auto; try lia.
  { unfold interior_pos. apply Forall_forall. intros x Hx. rewrite Forall_forall in HFta. apply HFta.
    destruct (exists_last Hta) as (l & a & El). rewrite El in *. rewrite removelast_app1 in Hx. apply in_app_iff; auto. }
  { lra. }
  exists h', o'. split.
  { unfold class_query_given_thk_profile. fold p. rewrite EQ, Hlta, HLv, Nat.eqb_refl. exact E. }
  split; [exact Hco'|]. split.
  { rewrite Hzm, <- (Hfn n) by lia. rewrite firstn_all2 by lia. reflexivity. }
  fold ta. destruct Hlay as [Hlay|(-> & _ & Hlay)]; [|exact Hlay]. destruct hs; [|rewrite app_nil_r; exact Hlay].
  exfalso. destruct (C08_constructed_profile (h ++ [mktable false 2 (table2 ta vs)]) (length h) D_1 R_kg true 3 h' o') as (_ & H0 & _).
  - rewrite app_length; cbn; lia.
  - rewrite tbl_alloc_new. apply (good_rows_wf false). apply table2_good; auto; try lia; try lra.
    unfold interior_pos. apply Forall_forall. intros x Hx. rewrite Forall_forall in HFta. apply HFta.
    destruct (exists_last Hta) as (l & a & El). rewrite El in *. rewrite removelast_app1 in Hx. apply in_app_iff; auto.
  - exact E.
  - specialize (H0 eq_refl). rewrite <- thk_of_layers, Hlay, combine_thk in H0 by lia. lra.
Qed.

(** A scalar thickness on a bare half space (zero depth) is rejected. *)
Theorem C69_no_depth_rejected : forall h o thk mid, 0 < thk -> o_zmax o <= 0 ->
  class_query_given_thk h o (ThkScalar thk None) mid = Err ValueError.
Proof.
  intros h o thk mid Ht Hz. unfold class_query_given_thk, class_thk_arg, infer_n_layers.
  rewrite C03_scalar_needs_layer_count. pose proof (ceil_spec (o_zmax o / thk)) as [H _].
  assert (o_zmax o / thk <= 0).
  { assert (0 < / thk) by (apply Rinv_0_lt_compat; lra). unfold Rdiv. nra. }
  assert (ceil (o_zmax o / thk) < 1)%Z by (apply lt_IZR; lra).
  destruct (Z.leb_spec (ceil (o_zmax o / thk)) 0); [reflexivity|lia].
Qed.

Example C69_instance : exists h o, vs_init [two_col] 0 D_1 R_kg true 3 = (h, Ok o) /\ coherent h o /\
  0 < o_zmax o /\ increasing [3; 12].
Proof.
  destruct C11_instance as (h & o & E & Hco & _). exists h, o. split; [exact E|]. split; [exact Hco|]. split.
  - destruct C08_instance as (h2 & o2 & E2 & _ & _ & Hz). rewrite E in E2. injection E2 as <- <-. lra.
  - apply increasing_cons. split; [lra|]. intros i j Hij Hj. cbn in Hj. lia.
Qed.

(** ** C70 exports *)

(** Kilometre output: first two columns divided by 1000, the rest kept; the
    object's own table is not touched (the function has no heap effect). *)
Theorem C70_km_output : forall t rows, table_wf t -> (2 <= t_ncol t)%nat -> output_as_km_unit t = Ok rows ->
  length rows = length (t_rows t) /\
  forall k j, (k < length rows)%nat ->
    cell j (nth k rows []) = cell j (nth k (t_rows t) []) / (if (j <? 2)%nat then 1000 else 1).
Proof.
  intros t rows Hw Hc E. unfold output_as_km_unit in E. destruct (t_int t); [discriminate|]. injection E as <-.
  rewrite map_length. split; [reflexivity|]. intros k j Hk.
  set (g := fun r => set_nth 1 (cell 1 r / 1000) (set_nth 0 (cell 0 r / 1000) r)).
  rewrite (nth_indep _ [] (g [])) by (rewrite map_length; exact Hk). rewrite (map_nth g).
  assert (Hr : length (nth k (t_rows t) []) = t_ncol t).
  { unfold table_wf in Hw. rewrite Forall_forall in Hw. apply Hw, nth_In, Hk. }
  destruct (nth k (t_rows t) []) as [|a [|b r]] eqn:ER; cbn in Hr; try lia.
  destruct j as [|[|j]]; cbn; try reflexivity. lra.
Qed.

(** Slowness: thickness kept, velocity inverted, so velocity times slowness is 1. *)
Theorem C70_slowness : forall rows k, Forall (fun r => (2 <= length r)%nat /\ 0 < cell 1 r) rows ->
  (k < length rows)%nat ->
  let r := nth k rows [] in let s := nth k (get_slowness rows) [] in
  length s = length r /\ cell 0 s = cell 0 r /\ cell 1 s * cell 1 r = 1.
Proof.
  intros rows k HF Hk r s.
  set (g := fun r : list R => cell 0 r :: 1 / cell 1 r :: repeat 1 (length r - 2)).
  assert (Es : s = g r).
  { unfold s, get_slowness. fold g. rewrite (nth_indep _ [] (g [])) by (rewrite map_length; exact Hk). apply (map_nth g). }
  rewrite Forall_forall in HF. destruct (HF r) as [H1 H2]; [apply nth_In, Hk|].
  rewrite Es. unfold g. cbn [length]. rewrite repeat_length. repeat split; [lia|]. cbn. field. lra.
Qed.

(** Finding: [to_txt] called with its own default precision always raises. *)
Theorem C70_to_txt_default_raises : to_txt_default = Err TypeError /\
  (forall is_list n, to_txt_check is_list n = Ok tt <-> is_list = true /\ n = 5%nat).
Proof.
  split; [reflexivity|]. intros [|] n; unfold to_txt_check; cbn; [|split; [discriminate|intros [H _]; discriminate]].
  destruct (Nat.eqb_spec n 5); cbn; split; auto; try discriminate. intros [_ H]; congruence.
Qed.

Example C70_instance : output_as_km_unit (mktable false 5 [[10; 200; 5/100; 1800; 1]]) =
  Ok [[10 / 1000; 200 / 1000; 5/100; 1800; 1]] /\
  get_slowness [[10; 200; 5/100; 1800; 1]] = [[10; 1 / 200; 1; 1; 1]].
Proof. split; reflexivity. Qed.
