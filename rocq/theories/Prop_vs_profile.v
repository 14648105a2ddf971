(** Theorems about the Vs_Profile class: C08-C11, C68-C70. *)
From Coq Require Import Reals List Bool ZArith Lia Lra.
From Verif Require Import Base M_generic P_generic M_profile P_profile M_vs_profile P_vs_profile Prop_profile.
Import ListNotations.
Open Scope R_scope.

Lemma xi_positive_documented f : f = 1%nat \/ f = 2%nat \/ f = 3%nat -> xi_positive f.
Proof. intros Hf Vs HV. apply C12_damping_positive; auto. Qed.

(** Normal form of a successful construction. *)
Lemma init_inv h loc du ru hs f h' o : (loc < length h)%nat -> table_wf (tbl h loc) ->
  vs_init h loc du ru hs f = (h', Ok o) ->
  let t := tbl h loc in
  let rows := final_rows t du ru hs f in
  valid_table t /\ du <> D_bad /\ ru <> R_bad /\ inplace t du ru && t_int t = false /\
  h' = caller_after h loc du ru ++ [mktable (Nat.eqb (t_ncol t) 5 && t_int t) 5 rows] /\
  o_rows h' o = rows /\ o_tbl o = length h /\ o_thk o = (if appends t hs then length h else loc) /\
  calc_Vs30 (layers_of rows) 1 = Ok (o_vs30 o) /\
  o_zmax o = rsum (map (cell 0) rows) /\
  o_nlayer o = (if Reqb (last (map (cell 0) rows) 0) 0 then (length rows - 1)%nat else length rows).
Proof.
  intros Hl Hw E t rows. destruct (vs_init_ok_inv _ _ _ _ _ _ _ _ Hw E) as (Hv & Hd & Hr & Hi).
  destruct (vs_init_spec h loc du ru hs f Hl Hv Hd Hr Hi) as (vs30 & E30 & E').
  rewrite E' in E. injection E as <- <-. cbn [o_tbl o_thk o_vs30 o_zmax o_nlayer].
  repeat split; auto. unfold o_rows; cbn [o_tbl].
  assert (HL : length (caller_after h loc du ru) = length h)
    by (unfold caller_after; destruct (inplace _ _ _); [apply set_nth_length|reflexivity]).
  rewrite <- HL, tbl_alloc_new. reflexivity.
Qed.

Lemma init_thks h loc du ru hs f h' o : (loc < length h)%nat -> table_wf (tbl h loc) ->
  vs_init h loc du ru hs f = (h', Ok o) -> o_thks h' o = map (cell 0) (o_rows h' o).
Proof.
  intros Hl Hw E. destruct (init_inv _ _ _ _ _ _ _ _ Hl Hw E)
    as (Hv & Hd & Hr & Hi & Hh & Hrows & Ht & Hk & _).
  unfold o_thks. rewrite Hk. destruct (appends (tbl h loc) hs) eqn:EA.
  - unfold o_rows. rewrite Ht. reflexivity.
  - rewrite Hrows, <- !thk_of_layers, layers_of_final, EA, app_nil_r by auto. rewrite Hh.
    assert (HL : length (caller_after h loc du ru) = length h)
      by (unfold caller_after; destruct (inplace _ _ _); [apply set_nth_length|reflexivity]).
    rewrite tbl_alloc_old by lia. unfold caller_after.
    destruct (inplace _ _ _); [|reflexivity].
    unfold tbl. rewrite set_nth_same by auto. cbn [t_rows].
    unfold thk_of, layers_of. rewrite !map_map. apply map_ext. intros r.
    destruct (convert_row_cells du ru r) as (-> & _). reflexivity.
Qed.

Lemma thk_of_app p q : thk_of (p ++ q) = thk_of p ++ thk_of q.
Proof. apply map_app. Qed.

Lemma lt01 (t : table) : (0 < length [t])%nat.
Proof. cbn. lia. Qed.

(** ** C08 constructor *)

(** Exactly the valid arrays with documented units are accepted (an integer
    array that needs a unit conversion is the only further exception). *)
Theorem C08_accepts_iff : forall h loc du ru hs f, (loc < length h)%nat -> table_wf (tbl h loc) ->
  ((exists h' o, vs_init h loc du ru hs f = (h', Ok o)) <->
   valid_table (tbl h loc) /\ du <> D_bad /\ ru <> R_bad /\
   ~ (t_int (tbl h loc) = true /\ t_ncol (tbl h loc) = 5%nat /\ (du = D_pct \/ ru = R_g))).
Proof.
  intros h loc du ru hs f Hl Hw. split.
  - intros (h' & o & E). destruct (vs_init_ok_inv _ _ _ _ _ _ _ _ Hw E) as (Hv & Hd & Hr & Hi).
    repeat split; auto. intros (HI & Hc & Hu). unfold inplace in Hi. rewrite HI, Hc in Hi.
    cbn in Hi. destruct Hu as [-> | ->]; [destruct ru|]; discriminate.
  - intros (Hv & Hd & Hr & Hn).
    assert (Hi : inplace (tbl h loc) du ru && t_int (tbl h loc) = false).
    { unfold inplace. destruct (t_int (tbl h loc)); [|apply andb_false_r]. rewrite andb_true_r.
      destruct (Nat.eqb_spec (t_ncol (tbl h loc)) 5); [|reflexivity].
      destruct du, ru; try reflexivity; exfalso; apply Hn; auto. }
    destruct (vs_init_spec h loc du ru hs f Hl Hv Hd Hr Hi) as (v & _ & E). eauto.
Qed.

(** Documented invariants of every constructed object. *)
Theorem C08_constructed_profile : forall h loc du ru hs f h' o,
  (loc < length h)%nat -> table_wf (tbl h loc) -> vs_init h loc du ru hs f = (h', Ok o) ->
  let input := layers_of (t_rows (tbl h loc)) in
  let built := layers_of (o_rows h' o) in
  let thk := map (cell 0) (o_rows h' o) in
  (* thicknesses and velocities are the given ones, then at most a half space *)
  (built = input \/ (hs = true /\ last (thk_of input) 0 <> 0 /\
                     built = input ++ [(0, last (vs_of input) 0)])) /\
  (hs = true -> last thk 0 = 0) /\
  Forall (fun r => length r = 5%nat) (o_rows h' o) /\
  o_zmax o = rsum (thk_of input) /\ o_zmax o = rsum thk /\
  o_nlayer o = length (filter (fun t => Rltb 0 t) thk) /\
  calc_Vs30 built 1 = Ok (o_vs30 o) /\
  (exists z, get_depth_array h' o = Ok z /\ length z = length thk /\
     forall k, (k < length thk)%nat -> nth k z 0 = rsum (firstn k thk)).
Proof.
  intros h loc du ru hs f h' o Hl Hw E input built thk.
  pose proof (init_thks _ _ _ _ _ _ _ _ Hl Hw E) as Hthk.
  destruct (init_inv _ _ _ _ _ _ _ _ Hl Hw E)
    as (Hv & Hd & Hr & Hi & Hh & Hrows & Ht & Hk & H30 & Hz & Hn).
  pose proof (layers_of_final (tbl h loc) du ru hs f Hv) as HL. rewrite <- Hrows in *.
  set (t := tbl h loc) in *.
  assert (Hne : t_rows t <> []) by (destruct Hv as (five & _ & Hg); eapply good_rows_ne; eauto).
  assert (Hthk0 : thk = thk_of built) by (unfold thk, built; rewrite thk_of_layers; reflexivity).
  assert (Hap : appends t hs = true -> hs = true /\ last (thk_of input) 0 <> 0).
  { unfold appends, input. rewrite thk_of_layers. intros HA. apply andb_true_iff in HA as [-> HA].
    apply negb_true_iff, Reqb_false in HA. auto. }
  assert (Hcase : built = input \/ (hs = true /\ last (thk_of input) 0 <> 0 /\
                     built = input ++ [(0, last (vs_of input) 0)])).
  { unfold built. rewrite HL. destruct (appends t hs) eqn:EA; [right|left; apply app_nil_r].
    destruct (Hap eq_refl) as [-> HA]. repeat split; auto. unfold input.
    rewrite vs_of_layers, (last_map _ _ []) by auto. reflexivity. }
  assert (Hlast0 : hs = true -> last thk 0 = 0).
  { intros ->. rewrite Hthk0. destruct (appends t true) eqn:EA.
    - unfold built. rewrite HL. unfold thk_of. rewrite map_app. cbn. apply last_last.
    - unfold built. rewrite HL, app_nil_r.
      unfold appends in EA. cbn [andb] in EA. apply negb_false_iff, Reqb_true in EA.
      rewrite thk_of_layers. exact EA. }
  assert (Hpos : Forall (fun x => 0 < x) (removelast thk) /\ (0 <= last thk 0) /\ thk <> []).
  { rewrite Hthk0. unfold built. rewrite HL. destruct Hv as (five & Hc & init & lst & Er & H1 & H2).
    assert (P1 : Forall (fun x => 0 < x) (map (cell 0) init)).
    { rewrite Forall_map. eapply Forall_impl; [|exact H1]. intros; eapply good_row_pos; eauto. }
    destruct (good_row_cells _ _ _ H2) as [P2 _].
    unfold appends. rewrite Er, !thk_of_app, layers_of_app, thk_of_app, thk_of_layers, map_app. cbn.
    rewrite !last_last.
    destruct (hs && negb (Reqb (cell 0 lst) 0)) eqn:EA.
    - apply andb_true_iff in EA as [_ EA]. apply negb_true_iff, Reqb_false in EA.
      cbn [map fst]. rewrite removelast_app by discriminate. cbn. rewrite app_nil_r, last_last.
      repeat split; [|lra|destruct (map (cell 0) init); discriminate].
      apply Forall_app; split; [exact P1|]. constructor; [lra|constructor].
    - cbn [map]. rewrite app_nil_r, removelast_app1, last_last. repeat split; auto.
      destruct (map (cell 0) init); discriminate. }
  destruct Hpos as (Hp1 & Hp2 & Hp3).
  split; [exact Hcase|]. split; [exact Hlast0|]. split; [|split; [|split; [exact Hz|split; [|split; [exact H30|]]]]].
  - rewrite Hrows. unfold final_rows. pose proof (base_rows_5 t du ru f Hv) as H5.
    destruct (appends t hs); [|exact H5]. apply Forall_app; split; [exact H5|].
    constructor; [|constructor].
    assert (Hb : base_rows t du ru f <> []).
    { intros Eb. apply (f_equal (@length _)) in Eb. rewrite base_rows_length in Eb.
      destruct (t_rows t); [auto|discriminate]. }
    rewrite Forall_forall in H5. unfold half_space_row. rewrite !set_nth_length. apply H5, last_In, Hb.
  - rewrite Hz. fold thk. rewrite Hthk0. destruct Hcase as [->|(_ & _ & ->)]; [reflexivity|].
    rewrite thk_of_app, rsum_app. cbn [thk_of map fst rsum]. lra.
  - rewrite Hn. fold thk. rewrite <- (map_length (cell 0) (o_rows h' o)). fold thk.
    destruct (exists_last Hp3) as (i & l & El). rewrite El in *. rewrite removelast_app1, last_last in *.
    assert (Hf : filter (fun t0 => Rltb 0 t0) i = i).
    { clear -Hp1. induction Hp1; cbn; auto. rewrite (proj2 (Rltb_true 0 x)) by auto. congruence. }
    rewrite filter_app, Hf, !app_length. cbn [length filter].
    destruct (Reqb_spec l 0) as [->|Hl0].
    + rewrite (proj2 (Rltb_false 0 0)) by lra. cbn. lia.
    + rewrite (proj2 (Rltb_true 0 l)) by lra. cbn. lia.
  - unfold get_depth_array. rewrite Hthk. fold thk. apply C01_depth_is_sum_above; auto.
Qed.

(** Two-column input: materials 1..n for finite layers, 0 for the half space. *)
Theorem C08_material_numbers : forall h loc du ru hs f h' o,
  (loc < length h)%nat -> table_wf (tbl h loc) -> t_ncol (tbl h loc) = 2%nat ->
  vs_init h loc du ru hs f = (h', Ok o) ->
  forall k, (k < length (o_rows h' o))%nat ->
    cell 4 (nth k (o_rows h' o) []) =
      if Rltb 0 (cell 0 (nth k (o_rows h' o) [])) then INR (S k) else 0.
Proof.
  intros h loc du ru hs f h' o Hl Hw Hc E k Hk.
  destruct (init_inv _ _ _ _ _ _ _ _ Hl Hw E) as (Hv & _ & _ & _ & _ & Hrows & _).
  rewrite Hrows in *. set (t := tbl h loc) in *.
  assert (Hg : good_rows false (t_rows t)).
  { destruct Hv as (five & Hc' & Hg). rewrite Hc in Hc'. destruct five; [discriminate|exact Hg]. }
  pose proof (good_rows_ne _ _ Hg) as Hne.
  set (n := length (t_rows t)).
  assert (Hn : (0 < n)%nat) by (subst n; destruct (t_rows t); [congruence|cbn; lia]).
  assert (Hb : base_rows t du ru f = build_from_2 (t_rows t) f) by (unfold base_rows; rewrite Hc; reflexivity).
  assert (Hlast : last (map (cell 0) (t_rows t)) 0 = cell 0 (nth (n - 1) (t_rows t) [])).
  { destruct (exists_last Hne) as (i & l & El). unfold n. rewrite El, map_app, app_length. cbn [length map].
    rewrite last_last, app_nth2 by lia. replace (length i + 1 - 1 - length i)%nat with 0%nat by lia. reflexivity. }
  assert (Hbase : forall i, (i < n)%nat ->
     cell 0 (nth i (build_from_2 (t_rows t) f) []) = cell 0 (nth i (t_rows t) []) /\
     cell 4 (nth i (build_from_2 (t_rows t) f) []) =
      if Rltb 0 (cell 0 (nth i (build_from_2 (t_rows t) f) [])) then INR (S i) else 0).
  { intros i Hi. rewrite build_from_2_nth by exact Hi. split; [reflexivity|].
    match goal with |- cell 4 [?a; ?b; ?c; ?d; ?e] = _ =>
      change (cell 4 [a; b; c; d; e]) with e; change (cell 0 [a; b; c; d; e]) with a end.
    pose proof (good_rows_nth_inv _ _ i Hg Hi) as Hgr. fold n in Hgr. fold n.
    rewrite Hlast.
    destruct (Nat.eqb_spec (S i) n) as [Ei|Ei].
    - replace (n - 1)%nat with i by lia. destruct (good_row_cells _ _ _ Hgr) as [Hge _].
      destruct (Reqb_spec (cell 0 (nth i (t_rows t) [])) 0) as [E0|E0].
      + rewrite E0, (proj2 (Rltb_false 0 0)) by lra.
        rewrite app_nth2; rewrite map_length, seq_length; [|lia].
        replace (i - i)%nat with 0%nat by lia. reflexivity.
      + rewrite (proj2 (Rltb_true 0 _)) by lra. rewrite nth_map_INR_seq by lia.
        rewrite INR_IZR_INZ. reflexivity.
    - apply good_row_pos in Hgr. rewrite (proj2 (Rltb_true 0 _) Hgr).
      destruct (Reqb _ 0).
      + rewrite app_nth1 by (rewrite map_length, seq_length; lia).
        rewrite nth_map_INR_seq by lia. rewrite INR_IZR_INZ. reflexivity.
      + rewrite nth_map_INR_seq by lia. rewrite INR_IZR_INZ. reflexivity. }
  unfold final_rows in *. rewrite Hb in *.
  destruct (appends t hs); [|apply Hbase; rewrite build_from_2_length in Hk; exact Hk].
  rewrite app_length, build_from_2_length in Hk. cbn [length] in Hk. fold n in Hk.
  destruct (Nat.eq_dec k n) as [->|Hkn].
  - rewrite app_nth2; rewrite build_from_2_length; fold n; [|lia]. rewrite Nat.sub_diag. cbn [nth].
    pose proof (base_rows_5 t du ru f Hv) as H5. rewrite Hb in H5. rewrite Forall_forall in H5.
    assert (Hbn : build_from_2 (t_rows t) f <> []).
    { intros Eb. apply (f_equal (@length _)) in Eb. rewrite build_from_2_length in Eb. fold n in Eb. cbn in Eb. lia. }
    destruct (len5 _ (H5 _ (last_In _ [] Hbn))) as (a & b & c & d & e & ->).
    cbn. rewrite (proj2 (Rltb_false 0 0)) by lra. reflexivity.
  - rewrite app_nth1 by (rewrite build_from_2_length; fold n; lia). apply Hbase. lia.
Qed.

(** The built table passes the library's own validator again, unless a half
    space is appended below a 5-column row whose material number is 0. *)
Theorem C08_table_is_valid : forall h loc du ru hs f h' o,
  (loc < length h)%nat -> table_wf (tbl h loc) -> f = 1%nat \/ f = 2%nat \/ f = 3%nat ->
  vs_init h loc du ru hs f = (h', Ok o) ->
  ~ (hs = true /\ t_ncol (tbl h loc) = 5%nat /\ cell 4 (last (t_rows (tbl h loc)) []) = 0 /\
     last (map (cell 0) (t_rows (tbl h loc))) 0 <> 0) ->
  check_Vs_profile_format (as_pyobj (tbl h' (o_tbl o))) = Ok tt /\ coherent h' o.
Proof.
  intros h loc du ru hs f h' o Hl Hw Hf E Hn.
  pose proof (init_thks _ _ _ _ _ _ _ _ Hl Hw E) as Hthk.
  destruct (init_inv _ _ _ _ _ _ _ _ Hl Hw E) as (Hv & _ & _ & _ & Hh & Hrows & Ht & _).
  assert (Hg : good_rows true (o_rows h' o)).
  { rewrite Hrows. apply final_rows_good; auto using xi_positive_documented.
    intros HA [H1 H2]. apply Hn. unfold appends in HA. apply andb_true_iff in HA as [-> HA].
    apply negb_true_iff, Reqb_false in HA. auto. }
  assert (HL : length (caller_after h loc du ru) = length h)
    by (unfold caller_after; destruct (inplace _ _ _); [apply set_nth_length|reflexivity]).
  assert (Et : t_ncol (tbl h' (o_tbl o)) = 5%nat) by (rewrite Ht, Hh, <- HL, tbl_alloc_new; reflexivity).
  split.
  - apply check_table_complete. exists true. split; [exact Et|exact Hg].
  - split; [|auto]. rewrite Ht, Hh, app_length, HL. cbn. lia.
Qed.

(** Finding: the exceptional case is reachable and its table is invalid. *)
Definition bad_input : table := mktable false 5 [[10; 200; 5/100; 1800; 0]].
Theorem C08_table_is_valid_refuted :
  exists h' o, vs_init [bad_input] 0 D_1 R_kg true 3 = (h', Ok o) /\
    check_Vs_profile_format (as_pyobj (tbl h' (o_tbl o))) <> Ok tt.
Proof.
  assert (Hv : valid_table bad_input).
  { exists true. split; [reflexivity|]. exists [], [10; 200; 5/100; 1800; 0]. split; [reflexivity|].
    split; [constructor|]. exists 10, 200, [5/100; 1800; 0]. repeat split; try lra.
    exists (5/100), 1800, 0%Z. repeat split; try lra; lia. }
  assert (Hw : table_wf bad_input) by (repeat constructor).
  destruct (proj2 (C08_accepts_iff [bad_input] 0 D_1 R_kg true 3 (lt01 _) Hw)) as (h' & o & E).
  { repeat split; auto; try discriminate. intros [H _]; discriminate. }
  exists h', o. split; [exact E|].
  destruct (init_inv _ _ _ _ _ _ _ _ (lt01 _) Hw E) as (_ & _ & _ & _ & Hh & Hrows & Ht & _).
  assert (EA : appends bad_input true = true).
  { unfold appends, bad_input. cbn. rewrite (proj2 (Reqb_false 10 0)) by lra. reflexivity. }
  intros HC. rewrite Ht, Hh in HC. cbn [caller_after inplace bad_input tbl nth t_ncol Nat.eqb andb orb app length] in HC.
  unfold tbl in HC. cbn [nth] in HC. apply check_table in HC.
  - destruct HC as (five & Hc & init & lst & El & H1 & H2). cbn [t_rows t_ncol] in *.
    unfold final_rows in El. change (nth 0 [bad_input] empty_table) with bad_input in El. rewrite EA in El.
    cbn in El. destruct init as [|r0 init]; [discriminate|]. injection El as E0 El.
    inversion H1 as [|? ? Hr0]; subst. destruct five; [|discriminate].
    destruct Hr0 as (a & b & tl & Er & _ & _ & xi & rho & m & Etl & _ & _ & Hm).
    injection Er as <- <- Er. rewrite Etl in Er. injection Er as _ _ Em. apply eq_IZR in Em. lia.
  - unfold table_wf. cbn [t_rows t_ncol]. unfold final_rows.
    change (nth 0 [bad_input] empty_table) with bad_input. rewrite EA. cbn. repeat constructor.
Qed.

(** A concrete construction: two columns, half space appended. *)
Definition two_col : table := mktable false 2 [[10; 200]; [20; 400]].
Lemma two_col_wf : table_wf (tbl [two_col] 0).
Proof. repeat constructor. Qed.
Lemma two_col_valid : valid_table two_col.
Proof.
  exists false. split; [reflexivity|]. exists [[10; 200]], [20; 400]. split; [reflexivity|]. split.
  - constructor; [|constructor]. exists 10, 200, []. repeat split; lra.
  - exists 20, 400, []. repeat split; lra.
Qed.
Example C08_instance : exists h' o, vs_init [two_col] 0 D_1 R_kg true 3 = (h', Ok o) /\
  layers_of (o_rows h' o) = [(10, 200); (20, 400); (0, 400)] /\ o_nlayer o = 2%nat /\ o_zmax o = 30.
Proof.
  destruct (proj2 (C08_accepts_iff [two_col] 0 D_1 R_kg true 3 (lt01 _) two_col_wf))
    as (h' & o & E).
  { repeat split; auto using two_col_valid; try discriminate. intros [H _]; discriminate. }
  exists h', o. split; [exact E|].
  destruct (C08_constructed_profile _ _ _ _ _ _ _ _ (lt01 _) two_col_wf E)
    as (Hb & Hhs & _ & Hz & _ & Hn & _).
  cbn in Hb, Hz.
  assert (HB : layers_of (o_rows h' o) = [(10, 200); (20, 400); (0, 400)]).
  { destruct Hb as [Hb|(_ & _ & Hb)]; [|exact Hb]. specialize (Hhs eq_refl).
    rewrite <- thk_of_layers in Hhs. rewrite Hb in Hhs. cbn in Hhs. lra. }
  split; [exact HB|]. rewrite <- thk_of_layers, HB in Hn. cbn in Hn. 
  repeat (first [rewrite (proj2 (Rltb_true 0 10)) in Hn by lra | rewrite (proj2 (Rltb_true 0 20)) in Hn by lra
   | rewrite (proj2 (Rltb_false 0 0)) in Hn by lra]; cbn in Hn).
  split; [exact Hn|]. lra.
Qed.

(** ** C09 effect on the caller's array *)
Theorem C09_caller_array : forall h loc du ru hs f h' o,
  (loc < length h)%nat -> table_wf (tbl h loc) -> vs_init h loc du ru hs f = (h', Ok o) ->
  (tbl h' loc = tbl h loc <-> t_ncol (tbl h loc) = 2%nat \/ (du = D_1 /\ ru = R_kg)) /\
  (forall l, l <> loc -> (l < length h)%nat -> tbl h' l = tbl h l).
Proof.
  intros h loc du ru hs f h' o Hl Hw E.
  destruct (init_inv _ _ _ _ _ _ _ _ Hl Hw E) as (Hv & Hd & Hr & Hi & Hh & _).
  assert (HL : length (caller_after h loc du ru) = length h)
    by (unfold caller_after; destruct (inplace _ _ _); [apply set_nth_length|reflexivity]).
  split.
  - rewrite Hh, tbl_alloc_old by lia. unfold caller_after.
    destruct Hv as (five & Hc & Hg). unfold inplace. rewrite Hc. destruct five; cbn [Nat.eqb andb].
    + split; [|intros [H|[-> ->]]; [discriminate|reflexivity]].
      intros Heq. right.
      destruct Hg as (init & lst & Er & _ & Hlst).
      destruct Hlst as (a & b & tl & -> & _ & _ & xi & rho & m & -> & Hxi & Hrho & _).
      assert (Hrow : forall du' ru', (tbl (set_nth loc (mktable false 5 (map (convert_row du' ru') (t_rows (tbl h loc)))) h) loc
                = tbl h loc) -> convert_row du' ru' [a; b; xi; rho; IZR m] = [a; b; xi; rho; IZR m]).
      { intros du' ru' H. unfold tbl at 1 in H. rewrite set_nth_same in H by auto.
        apply (f_equal t_rows) in H. cbn [t_rows] in H. rewrite Er, map_app in H.
        cbn [map] in H. apply app_inj_tail in H as [_ H]. exact H. }
      destruct du, ru; try congruence; cbn [orb] in Heq; auto;
        apply Hrow in Heq; rewrite convert_row_5 in Heq; injection Heq; intros; lra.
    + split; auto.
  - intros l Hne Hlt. rewrite Hh, tbl_alloc_old by lia. unfold caller_after.
    destruct (inplace _ _ _); [|reflexivity]. unfold tbl. apply set_nth_other; auto.
Qed.

(** Building twice from the same array with non-SI units converts twice. *)
Theorem C09_second_construction : forall h loc du ru hs f h1 o1 h2 o2,
  (loc < length h)%nat -> table_wf (tbl h loc) -> t_ncol (tbl h loc) = 5%nat ->
  vs_init h loc du ru hs f = (h1, Ok o1) -> vs_init h1 loc du ru hs f = (h2, Ok o2) ->
  forall k, (k < length (t_rows (tbl h loc)))%nat ->
    let r := nth k (t_rows (tbl h loc)) [] in
    let r1 := nth k (o_rows h1 o1) [] in let r2 := nth k (o_rows h2 o2) [] in
    cell 2 r1 = (match du with D_pct => cell 2 r / 100 | _ => cell 2 r end) /\
    cell 3 r1 = (match ru with R_g => cell 3 r * 1000 | _ => cell 3 r end) /\
    cell 2 r2 = (match du with D_pct => cell 2 r1 / 100 | _ => cell 2 r1 end) /\
    cell 3 r2 = (match ru with R_g => cell 3 r1 * 1000 | _ => cell 3 r1 end).
Proof.
  intros h loc du ru hs f h1 o1 h2 o2 Hl Hw Hc E1 E2 k Hk r r1 r2.
  destruct (init_inv _ _ _ _ _ _ _ _ Hl Hw E1) as (Hv & Hd & Hr & Hi & Hh & Hrows & _).
  set (t := tbl h loc) in *.
  assert (HL : length (caller_after h loc du ru) = length h)
    by (unfold caller_after; destruct (inplace _ _ _); [apply set_nth_length|reflexivity]).
  assert (Et1 : t_rows (tbl h1 loc) = map (convert_row du ru) (t_rows t) /\ t_ncol (tbl h1 loc) = 5%nat).
  { rewrite Hh, tbl_alloc_old by lia. unfold caller_after. fold t.
    destruct (inplace t du ru) eqn:EI.
    - unfold tbl. rewrite set_nth_same by auto. auto.
    - fold t. split; [|exact Hc]. unfold inplace in EI. rewrite Hc in EI. cbn in EI.
      destruct du, ru; try discriminate; try congruence.
      symmetry. change (convert_row D_1 R_kg) with (fun r : list R => r). apply map_id. }
  destruct Et1 as [Et1 Et1c].
  assert (Hl1 : (loc < length h1)%nat) by (rewrite Hh, app_length; lia).
  assert (Hw1 : table_wf (tbl h1 loc)).
  { unfold table_wf. rewrite Et1, Et1c, Forall_map. unfold table_wf in Hw. fold t in Hw. rewrite Hc in Hw.
    eapply Forall_impl; [|exact Hw]. intros x Hx. unfold convert_row. destruct du, ru; rewrite ?set_nth_length; auto. }
  destruct (init_inv _ _ _ _ _ _ _ _ Hl1 Hw1 E2) as (Hv1 & _ & _ & _ & _ & Hrows2 & _).
  assert (HF : forall t', t_ncol t' = 5%nat -> (k < length (t_rows t'))%nat ->
     nth k (final_rows t' du ru hs f) [] = convert_row du ru (nth k (t_rows t') [])).
  { intros t' Hc' Hk'. unfold final_rows, base_rows. rewrite Hc'. cbn [Nat.eqb].
    assert (EB : nth k (map (convert_row du ru) (t_rows t')) [] = convert_row du ru (nth k (t_rows t') [])).
    { rewrite (nth_indep _ [] (convert_row du ru [])) by (rewrite map_length; auto). apply map_nth. }
    destruct (appends t' hs); [|exact EB]. rewrite app_nth1 by (rewrite map_length; auto). exact EB. }
  assert (Hlen5 : forall t', table_wf t' -> t_ncol t' = 5%nat -> (k < length (t_rows t'))%nat ->
      length (nth k (t_rows t') []) = 5%nat).
  { intros t' Hw' Hc' Hk'. unfold table_wf in Hw'. rewrite Forall_forall in Hw'. rewrite Hw'; auto. apply nth_In; auto. }
  assert (Er1 : r1 = convert_row du ru r) by (unfold r1; rewrite Hrows; apply HF; auto).
  assert (Er2 : r2 = convert_row du ru r1).
  { unfold r2. rewrite Hrows2, HF; auto; [|rewrite Et1, map_length; auto].
    f_equal. rewrite Er1, Et1, (nth_indep _ [] (convert_row du ru [])) by (rewrite map_length; auto). apply map_nth. }
  destruct (len5 r) as (a & b & c & d & e & Er); [apply Hlen5; auto|].
  rewrite Er2, Er1, Er, !convert_row_5. cbn. auto.
Qed.

Example C09_instance : exists h' o,
  vs_init [mktable false 5 [[10; 200; 5; 18/10; 1]]] 0 D_pct R_g false 3 = (h', Ok o) /\
  t_rows (tbl h' 0) = [[10; 200; 5/100; 18/10 * 1000; 1]].
Proof.
  set (t := mktable false 5 [[10; 200; 5; 18/10; 1]]).
  assert (Hv : valid_table t).
  { exists true. split; [reflexivity|]. exists [], [10; 200; 5; 18/10; 1]. split; [reflexivity|].
    split; [constructor|]. exists 10, 200, [5; 18/10; 1]. repeat split; try lra.
    exists 5, (18/10), 1%Z. repeat split; try lra; lia. }
  assert (Hw : table_wf (tbl [t] 0)) by (repeat constructor).
  destruct (proj2 (C08_accepts_iff [t] 0 D_pct R_g false 3 (lt01 _) Hw)) as (h' & o & E).
  { repeat split; auto; try discriminate. intros [H _]; discriminate. }
  exists h', o. split; [exact E|].
  destruct (init_inv _ _ _ _ _ _ _ _ (lt01 _) Hw E) as (_ & _ & _ & _ & -> & _).
  reflexivity.
Qed.

(** ** C10 truncation *)

Lemma query_contains p z k v : p <> [] -> interior_pos (thk_of p) -> 0 <= z ->
  contains (thk_of p) z k -> nth_error (vs_of p) k = Some v -> query_Vs_at_depth p [z] = Ok [v].
Proof.
  intros Hp Hi Hz Hc Hv.
  destruct (query_Vs_at_depth_spec p [z] Hp) as (vs & E & HF); [constructor; auto|].
  inversion HF as [|d v' ds vs' (k' & Hc' & Hv') HF' E1 E2]; subst. inversion HF'; subst.
  assert (k' = k) by (eapply contains_unique; eauto). subst. congruence.
Qed.

Lemma nth_error_firstn_lt {A} (l : list A) n k : (k < n)%nat -> nth_error (firstn n l) k = nth_error l k.
Proof.
  revert n k; induction l as [|a l IH]; intros [|n] [|k] H; cbn; auto; try lia. apply IH. lia.
Qed.

Lemma good_rows_interior rows : good_rows true rows -> interior_pos (map (cell 0) rows).
Proof.
  intros (init & lst & -> & H & _). unfold interior_pos. rewrite map_app. cbn. rewrite removelast_app1.
  rewrite Forall_map. eapply Forall_impl; [|exact H]. intros; eapply good_row_pos; eauto.
Qed.

(** Result of truncating a freshly built profile (float table): total depth,
    layer count, half space, and the same ground above the truncation depth. *)
Theorem C10_truncated_profile : forall h o d V, coherent h o -> t_int (tbl h (o_tbl o)) = false ->
  0 < d -> 0 < V ->
  exists h' o', truncate h o (Some d) (Some V) = (h', Ok o') /\
    coherent h' o' /\ o_zmax o' = d /\
    rsum (map (cell 0) (o_rows h' o')) = d /\
    (exists r, last (o_rows h' o') [] = r /\ cell 0 r = 0 /\ cell 1 r = V /\ cell 4 r = 0) /\
    (forall z, 0 <= z < d -> query_Vs_at_depth (layers_of (o_rows h' o')) [z]
                           = query_Vs_at_depth (layers_of (o_rows h o)) [z]) /\
    (forall z, d <= z -> query_Vs_at_depth (layers_of (o_rows h' o')) [z] = Ok [V]).
Proof.
  intros h o d V Hco Hint Hd HV.
  destruct (truncate_spec h o d V Hco Hint Hd HV)
    as (j & h' & o' & m & Hcut & E & Hm & Hrows & _ & Hz & Hn & Hco' & _).
  exists h', o'. split; [exact E|]. split; [exact Hco'|]. split; [exact Hz|].
  set (rows := o_rows h o) in *. set (thk := map (cell 0) rows) in *.
  set (x := d - top thk j) in *.
  set (rj := set_nth 4 (IZR m) (set_nth 0 x (nth j rows []))) in *.
  set (bed := [0; V; 1 / (2 * Qs_formula_3 V); rho_rule V; 0]) in *.
  destruct Hcut as (Hj & Hcut1 & Hcut2).
  assert (Hjr : (j < length rows)%nat) by (unfold thk in Hj; rewrite map_length in Hj; exact Hj).
  assert (Hg : good_rows true rows) by apply Hco.
  assert (Hg' : good_rows true (o_rows h' o')) by apply Hco'.
  assert (H5 : length (nth j rows []) = 5%nat).
  { pose proof (good_rows_wf _ _ Hg) as HW. rewrite Forall_forall in HW. apply HW, nth_In, Hjr. }
  assert (E0 : cell 0 rj = x).
  { unfold rj, cell. rewrite set_nth_other by lia. apply set_nth_same. lia. }
  assert (E1 : cell 1 rj = cell 1 (nth j rows [])).
  { unfold rj, cell. rewrite !set_nth_other by lia. reflexivity. }
  set (thk' := firstn j thk ++ [x; 0]).
  set (vs := map (cell 1) rows).
  assert (Ethk' : thk_of (layers_of (o_rows h' o')) = thk').
  { rewrite thk_of_layers, Hrows, map_app. cbn [map]. rewrite E0. unfold thk', thk. rewrite firstn_map. reflexivity. }
  assert (Evs' : vs_of (layers_of (o_rows h' o')) = firstn (S j) vs ++ [V]).
  { rewrite vs_of_layers, Hrows, map_app. cbn [map]. rewrite E1. unfold vs.
    assert (EF : firstn (S j) (map (cell 1) rows) = firstn j (map (cell 1) rows) ++ [cell 1 (nth j rows [])]).
    { clear -Hjr. revert j Hjr. induction rows as [|r rows IH]; intros [|j] Hj; cbn in *; try lia; [reflexivity|].
      f_equal. apply IH. lia. }
    rewrite EF, <- firstn_map, <- app_assoc. reflexivity. }
  assert (Lf : length (firstn j thk) = j) by (rewrite firstn_length; lia).
  assert (Htop : forall k, (k <= j)%nat -> top thk' k = top thk k).
  { intros k Hk. unfold top, thk'. rewrite firstn_app, Lf. replace (k - j)%nat with 0%nat by lia.
    cbn. rewrite app_nil_r, firstn_firstn. f_equal. f_equal. lia. }
  assert (HtopS : top thk' (S j) = d).
  { unfold top, thk'. rewrite firstn_app, Lf. replace (S j - j)%nat with 1%nat by lia.
    rewrite firstn_all2 by lia. cbn. rewrite rsum_app. cbn. unfold x, top. lra. }
  assert (Llen : length thk' = S (S j)) by (unfold thk'; rewrite app_length, Lf; cbn; lia).
  assert (Hp' : layers_of (o_rows h' o') <> []) by (intros EE; unfold thk_of in Ethk'; rewrite EE in Ethk'; unfold thk' in Ethk'; destruct (firstn j thk); discriminate).
  assert (Hp : layers_of rows <> []) by (destruct rows; [cbn in Hjr; lia|discriminate]).
  assert (Hi' : interior_pos (thk_of (layers_of (o_rows h' o'))))
    by (rewrite thk_of_layers; apply good_rows_interior; exact Hg').
  assert (Hi : interior_pos (thk_of (layers_of rows)))
    by (rewrite thk_of_layers; apply good_rows_interior; exact Hg).
  split; [rewrite <- thk_of_layers, Ethk'; rewrite <- (top_all thk'), Llen|split; [|split]].
  - unfold top. rewrite firstn_all2 by lia. unfold thk'. rewrite rsum_app. cbn. unfold x, top. lra.
  - exists bed. split; [|split; [reflexivity|split; reflexivity]].
    rewrite Hrows. replace (firstn j rows ++ [rj; bed]) with ((firstn j rows ++ [rj]) ++ [bed])
      by (rewrite <- app_assoc; reflexivity). apply last_last.
  - intros z [Hz0 Hzd].
    destruct (query_Vs_at_depth_spec (layers_of rows) [z] Hp) as (w & Ew & HF); [constructor; auto|].
    inversion HF as [|? v ? ? (k & Hc & Hv) HF' Ea Eb]; subst. inversion HF'; subst.
    rewrite Ew. rewrite thk_of_layers in Hc. fold thk in Hc. rewrite vs_of_layers in Hv. fold vs in Hv.
    destruct Hc as (Hk & Hk1 & Hk2).
    assert (Hkj : (k <= j)%nat).
    { destruct (Nat.le_gt_cases k j) as [|Hgt]; [auto|].
      destruct Hcut2 as [Hc2|Hc2]; [|lia].
      assert (HF0 : Forall (fun t => 0 <= t) thk).
      { unfold thk. rewrite Forall_map. eapply Forall_impl; [|eapply good_rows_cells; eauto]. cbn; tauto. }
      pose proof (top_mono thk HF0 (S j) k ltac:(lia)). lra. }
    apply (query_contains _ z k v); auto.
    + rewrite Ethk'. split; [lia|]. split; [rewrite Htop by lia; exact Hk1|].
      intros _. destruct (Nat.eq_dec k j) as [->|]; [rewrite HtopS; exact Hzd|].
      rewrite Htop by lia. apply Hk2. lia.
    + rewrite Evs'. assert (Hlv : length vs = length rows) by (unfold vs; rewrite map_length; reflexivity).
      rewrite nth_error_app1 by (rewrite firstn_length; lia).
      rewrite nth_error_firstn_lt by lia. exact Hv.
  - intros z Hz'. apply (query_contains _ z (S j) V); auto; try lra.
    + rewrite Ethk'. split; [lia|]. split; [rewrite HtopS; lra|]. intros; lia.
    + rewrite Evs'. assert (Hlv : length vs = length rows) by (unfold vs; rewrite map_length; reflexivity).
      rewrite nth_error_app2; rewrite firstn_length; [|lia].
      replace (S j - Nat.min (S j) (length vs))%nat with 0%nat by lia. reflexivity.
Qed.

(** Invalid arguments are rejected and nothing changes. *)
Theorem C10_bad_arguments : forall h o d V,
  d = None \/ (exists x, d = Some x /\ x <= 0) \/ V = None \/ (exists x, V = Some x /\ x <= 0) ->
  truncate h o d V = (h, Err ValueError).
Proof.
  intros h o d V H. unfold truncate. destruct d as [d|]; [|reflexivity].
  destruct (Rleb_spec d 0); [reflexivity|].
  destruct H as [H|[(x & E & H)|[->|(x & -> & H)]]]; try discriminate.
  - injection E as <-. lra.
  - reflexivity.
  - rewrite (proj2 (Rleb_true x 0) H). reflexivity.
Qed.

(** ** C11 effect of truncation on the receiver *)
Theorem C11_receiver_after_truncate : forall h o d V, coherent h o -> t_int (tbl h (o_tbl o)) = false ->
  0 < d -> 0 < V ->
  exists h' o' j, truncate h o (Some d) (Some V) = (h', Ok o') /\
    cut_layer (map (cell 0) (o_rows h o)) d j /\
    (* the receiver's row holding the depth has the cut thickness, other rows are kept *)
    cell 0 (nth j (o_rows h' o) []) = d - rsum (firstn j (map (cell 0) (o_rows h o))) /\
    (forall i, i <> j -> nth i (o_rows h' o) [] = nth i (o_rows h o) []) /\
    (o_rows h' o = o_rows h o <-> d = rsum (firstn (S j) (map (cell 0) (o_rows h o)))) /\
    (* the result does not share its table with the receiver *)
    o_tbl o' <> o_tbl o.
Proof.
  intros h o d V Hco Hint Hd HV.
  destruct (truncate_spec h o d V Hco Hint Hd HV)
    as (j & h' & o' & m & Hcut & E & Hm & Hrows & _ & Hz & Hn & Hco' & Hrec & Hoth & Hne & _).
  exists h', o', j. split; [exact E|]. split; [exact Hcut|].
  set (rows := o_rows h o) in *. set (thk := map (cell 0) rows) in *.
  destruct Hcut as (Hj & Hc1 & Hc2).
  assert (Hjr : (j < length rows)%nat) by (unfold thk in Hj; rewrite map_length in Hj; exact Hj).
  assert (H5 : length (nth j rows []) = 5%nat).
  { destruct Hco as (_ & _ & Hg & _). pose proof (good_rows_wf _ _ Hg) as HW. rewrite Forall_forall in HW. apply HW, nth_In, Hjr. }
  assert (Ecell : cell 0 (nth j (o_rows h' o) []) = d - top thk j).
  { rewrite Hrec, set_nth_same by auto. unfold cell. apply set_nth_same. lia. }
  split; [exact Ecell|]. split; [intros i Hi; rewrite Hrec; apply set_nth_other; auto|].
  split; [|exact Hne].
  assert (EtopS : top thk (S j) = top thk j + cell 0 (nth j rows [])).
  { rewrite top_S by auto. unfold thk. rewrite <- (map_nth (cell 0) rows [] j). reflexivity. }
  fold (top thk (S j)). split; intros H.
  - rewrite H in Ecell. fold thk. lra.
  - rewrite Hrec. replace (d - top thk j) with (nth 0 (nth j rows []) 0).
    + rewrite set_nth_id, set_nth_id. reflexivity.
    + change (nth 0 (nth j rows []) 0) with (cell 0 (nth j rows [])). fold thk in H. lra.
Qed.

(** On a profile built from an integer array the cut thickness is stored as a
    whole number.  Both the receiver and the result then end short of the
    requested depth, unless the cut thickness is whole.  When it is below one
    metre the call raises, after having overwritten the receiver's row with 0. *)
Theorem C11_integer_table : forall h o d V, coherent h o -> t_int (tbl h (o_tbl o)) = true ->
  0 < d -> 0 < V ->
  exists h' r j n, truncate h o (Some d) (Some V) = (h', r) /\
    let above := rsum (firstn j (map (cell 0) (o_rows h o))) in
    cut_layer (map (cell 0) (o_rows h o)) d j /\
    (0 <= n)%Z /\ above + IZR n <= d < above + IZR n + 1 /\
    cell 0 (nth j (o_rows h' o) []) = IZR n /\
    (forall i, i <> j -> nth i (o_rows h' o) [] = nth i (o_rows h o) []) /\
    match r with
    | Ok o' => (0 < n)%Z /\ o_zmax o' = above + IZR n
    | Err _ => n = 0%Z
    end.
Proof.
  intros h o d V Hco Hint Hd HV.
  destruct (truncate_gen h o d V Hco Hd HV) as (j & Hcut & HE & HO). rewrite Hint in HE, HO.
  set (rows := o_rows h o) in *. set (thk := map (cell 0) rows) in *.
  pose proof Hcut as (Hj & Hc1 & Hc2).
  set (x := d - top thk j) in *.
  assert (Hx : 0 < x) by (unfold x; lra).
  assert (Hjr : (j < length rows)%nat) by (unfold thk in Hj; rewrite map_length in Hj; exact Hj).
  assert (H5 : length (nth j rows []) = 5%nat).
  { destruct Hco as (_ & _ & Hg & _). pose proof (good_rows_wf _ _ Hg) as HW. rewrite Forall_forall in HW. apply HW, nth_In, Hjr. }
  assert (Ey : store true x = IZR (Int_part x)).
  { unfold store. rewrite (proj2 (Rleb_true 0 x)) by lra. reflexivity. }
  rewrite Ey in HE, HO. pose proof (Int_part_spec x) as Hn. set (n := Int_part x) in *.
  assert (Hn0 : (0 <= n)%Z) by (assert (-1 < n)%Z by (apply lt_IZR; lra); lia).
  assert (Hb : rsum (firstn j thk) + IZR n <= d < rsum (firstn j thk) + IZR n + 1)
    by (unfold x, top in Hn; lra).
  assert (HR : forall h', o_rows h' o = set_nth j (set_nth 0 (IZR n) (nth j rows [])) rows ->
    cell 0 (nth j (o_rows h' o) []) = IZR n /\
    (forall i, i <> j -> nth i (o_rows h' o) [] = nth i rows [])).
  { intros h' E. rewrite E. split.
    - rewrite set_nth_same by auto. unfold cell. apply set_nth_same. lia.
    - intros i Hi. apply set_nth_other; auto. }
  destruct (Z.eq_dec n 0) as [E0|E0].
  - destruct HE as (h' & e & E & Hr); [rewrite E0; reflexivity|]. destruct (HR h' Hr) as [R1 R2].
    exists h', (Err e), j, n. cbv zeta. auto 10.
  - destruct HO as (h' & o' & m & E & _ & _ & _ & Hz & _ & _ & Hr & _); [apply IZR_lt; lia|].
    destruct (HR h' Hr) as [R1 R2].
    exists h', (Ok o'), j, n. cbv zeta. split; [exact E|]. split; [exact Hcut|]. split; [exact Hn0|]. split; [exact Hb|].
    split; [exact R1|]. split; [exact R2|]. split; [lia|exact Hz].
Qed.

Example C11_integer_instance : exists h o, coherent h o /\ t_int (tbl h (o_tbl o)) = true /\
  exists h' e, truncate h o (Some (1 / 2)) (Some 1000) = (h', Err e) /\ cell 0 (nth 0 (o_rows h' o) []) = 0.
Proof.
  set (rows := [[10; 200; 1; 1800; 1]; [0; 900; 1; 2000; 0]]).
  exists [mktable true 5 rows], (mkobj 0 0 200 10 1).
  assert (Hco : coherent [mktable true 5 rows] (mkobj 0 0 200 10 1)).
  { split; [cbn; lia|]. split; [reflexivity|]. split; [|reflexivity].
    exists [[10; 200; 1; 1800; 1]], [0; 900; 1; 2000; 0]. split; [reflexivity|]. split.
    - constructor; [|constructor]. exists 10, 200, [1; 1800; 1]. repeat split; try lra.
      exists 1, 1800, 1%Z. repeat split; try lra; lia.
    - exists 0, 900, [1; 2000; 0]. repeat split; try lra. exists 1, 2000, 0%Z. repeat split; try lra; lia. }
  split; [exact Hco|]. split; [reflexivity|].
  destruct (C11_integer_table _ _ (1 / 2) 1000 Hco eq_refl ltac:(lra) ltac:(lra))
    as (h' & r & j & n & E & Hcut & Hn & Hb & Hc & _ & Hr).
  destruct Hcut as (Hj & H1 & _). cbn in Hj, H1, Hb.
  destruct j as [|j].
  2:{ unfold top in H1. cbn in H1. destruct j; cbn in H1; [lra|lia]. }
  cbn in Hb. assert (n = 0%Z).
  { assert (IZR n < 1) by lra. apply lt_IZR in H. lia. }
  destruct r as [o'|e]; [lia|]. exists h', e. split; [exact E|]. rewrite Hc, H. reflexivity.
Qed.

(** A second, deeper truncation of the same receiver does not reach the
    requested depth: 5 m then 25 m of a 10 m + 20 m profile gives 20 m. *)
Theorem C11_second_truncation_refuted :
  exists h0 o0 h1 o1 h2 o2,
    vs_init [mktable false 2 [[10; 200]; [20; 400]; [0; 900]]] 0 D_1 R_kg false 3 = (h0, Ok o0) /\
    truncate h0 o0 (Some 5) (Some 1000) = (h1, Ok o1) /\
    truncate h1 o0 (Some 25) (Some 1000) = (h2, Ok o2) /\
    o_zmax o2 = 20 /\ o_zmax o2 <> 25.
Proof.
  set (t := mktable false 2 [[10; 200]; [20; 400]; [0; 900]]).
  assert (Hv : valid_table t).
  { exists false. split; [reflexivity|]. exists [[10; 200]; [20; 400]], [0; 900]. split; [reflexivity|]. split.
    - constructor; [|constructor; [|constructor]]; do 2 eexists; exists []; repeat split; lra.
    - exists 0, 900, []. repeat split; lra. }
  assert (Hw : table_wf t) by (repeat constructor).
  destruct (proj2 (C08_accepts_iff [t] 0 D_1 R_kg false 3 (lt01 _) Hw)) as (h0 & o0 & E0).
  { repeat split; auto; try discriminate. intros [H _]; discriminate. }
  destruct (C08_table_is_valid _ _ _ _ _ _ _ _ (lt01 _) Hw ltac:(auto) E0) as (_ & Hco); [intros [H _]; discriminate|].
  destruct (init_inv _ _ _ _ _ _ _ _ (lt01 _) Hw E0) as (_ & _ & _ & _ & Hh & Hr0 & Ht & Hk & _).
  change (tbl [t] 0) with t in *. cbn [length] in Ht.
  change (appends t false) with false in Hk. cbn [caller_after inplace t_ncol Nat.eqb andb] in Hh.
  change (caller_after [t] 0 D_1 R_kg) with [t] in Hh.
  assert (Hint : t_int (tbl h0 (o_tbl o0)) = false) by (rewrite Ht, Hh; reflexivity).
  destruct (truncate_spec h0 o0 5 1000 Hco Hint ltac:(lra) ltac:(lra))
    as (j1 & h1 & o1 & m1 & Hcut1 & E1 & _ & _ & _ & _ & _ & _ & Hrec1 & Hoth1 & _ & Hint1).
  assert (HL : layers_of (o_rows h0 o0) = [(10, 200); (20, 400); (0, 900)]).
  { rewrite Hr0, layers_of_final by auto. change (appends t false) with false. reflexivity. }
  assert (Hthk : map (cell 0) (o_rows h0 o0) = [10; 20; 0]) by (rewrite <- thk_of_layers, HL; reflexivity).
  assert (Hj1 : j1 = 0%nat).
  { rewrite Hthk in Hcut1. destruct Hcut1 as (Hj & Hc & _). destruct j1 as [|[|[|j1]]]; [reflexivity| | |cbn in Hj; lia].
    - unfold top in Hc. cbn in Hc. lra.
    - unfold top in Hc. cbn in Hc. lra. }
  subst j1.
  (* the array behind _thk is still the caller's *)
  assert (Hlh : length h0 = 2%nat) by (rewrite Hh; reflexivity).
  assert (Hthks1 : o_thks h1 o0 = [10; 20; 0]).
  { unfold o_thks. rewrite Hk, Hoth1 by lia. rewrite Hh. reflexivity. }
  assert (Hrows1 : map (cell 0) (o_rows h1 o0) = [5; 20; 0]).
  { rewrite Hrec1. destruct (o_rows h0 o0) as [|r0 [|r1 [|r2 [|]]]] eqn:ER; try (cbn in Hthk; discriminate).
    cbn in Hthk. injection Hthk as Ha Hb Hc.
    pose proof Hco as (_ & _ & Hg & _). rewrite ER in Hg. pose proof (good_rows_wf _ _ Hg) as HW.
    inversion HW as [|? ? H5]; subst. destruct (len5 _ H5) as (a & b & c & dd & e & ->).
    cbn in *. rewrite Hb, Hc. unfold top; cbn. f_equal. lra. }
  destruct (o_rows h1 o0) as [|r0 [|r1 [|r2 [|]]]] eqn:ER1; try (cbn in Hrows1; discriminate).
  cbn in Hrows1. injection Hrows1 as Ha Hb Hc.
  assert (Hg1 : exists a0 x0 p0 m0 a1 x1 p1 m1', r0 = [5; a0; x0; p0; IZR m0] /\ r1 = [20; a1; x1; p1; IZR m1'] /\
     0 < a0 /\ 0 < x0 /\ 0 < p0 /\ (0 < m0)%Z /\ 0 < a1 /\ 0 < x1 /\ 0 < p1 /\ (0 < m1')%Z).
  { destruct (o_rows h0 o0) as [|s0 [|s1 [|s2 [|]]]] eqn:ER; try (cbn in Hthk; discriminate).
    cbn in Hrec1. injection Hrec1 as -> -> ->. pose proof Hco as (_ & _ & Hg & _). rewrite ER in Hg.
    pose proof (good_rows_nth_inv _ _ 0 Hg ltac:(cbn; lia)) as G0. cbn in G0.
    pose proof (good_rows_nth_inv _ _ 1 Hg ltac:(cbn; lia)) as G1. cbn in G1.
    destruct G0 as (t0 & a0 & tl0 & -> & _ & HA0 & x0 & p0 & m0 & -> & HX0 & HP0 & HM0).
    destruct G1 as (t1 & a1 & tl1 & -> & _ & HA1 & x1 & p1 & mm & -> & HX1 & HP1 & HM1).
    cbn in Ha, Hb. subst t1. exists a0, x0, p0, m0, a1, x1, p1, mm.
    split; [cbn; f_equal; exact Ha|]. auto 12. }
  destruct Hg1 as (a0 & x0 & p0 & m0 & a1 & x1 & p1 & mm & -> & -> & ? & ? & ? & ? & ? & ? & ? & ?).
  (* second truncation *)
  set (new := [[5; a0; x0; p0; IZR m0]; [15; a1; x1; p1; IZR mm]; [0; 1000; 1 / (2 * Qs_formula_3 1000); rho_rule 1000; 0]]).
  assert (Hgn : good_rows true new).
  { exists [[5; a0; x0; p0; IZR m0]; [15; a1; x1; p1; IZR mm]], [0; 1000; 1 / (2 * Qs_formula_3 1000); rho_rule 1000; 0].
    split; [reflexivity|]. split; [constructor; [|constructor; [|constructor]]|].
    - exists 5, a0, [x0; p0; IZR m0]. repeat split; auto; try lra. exists x0, p0, m0. auto.
    - exists 15, a1, [x1; p1; IZR mm]. repeat split; auto; try lra. exists x1, p1, mm. auto.
    - exists 0, 1000, [1 / (2 * Qs_formula_3 1000); rho_rule 1000; 0]. repeat split; try lra.
      exists (1 / (2 * Qs_formula_3 1000)), (rho_rule 1000), 0%Z. repeat split; try lia.
      + pose proof (xi3_eq 1000 ltac:(lra)). apply Rdiv_lt_0_compat; lra.
      + apply rho_rule_pos. }
  set (h1w := write_thk h1 (o_tbl o0) 1 15).
  destruct (vs_init_SI h1w new Hgn) as (vs30 & _ & EV).
  assert (Hh1len : (o_tbl o0 < length h1)%nat).
  { destruct (Nat.lt_ge_cases (o_tbl o0) (length h1)) as [|Hge]; [auto|].
    unfold o_rows, tbl in ER1. rewrite nth_overflow in ER1 by auto. discriminate. }
  exists h0, o0, h1, o1. do 2 eexists. split; [exact E0|]. split; [exact E1|]. split.
  { unfold truncate. rewrite (proj2 (Rleb_false 25 0)), (proj2 (Rleb_false 1000 0)) by lra. cbv zeta.
    rewrite Hthks1. cbn [trunc_scan]. rewrite (proj2 (Rleb_false 25 (0 + 10))) by lra.
    rewrite (proj2 (Rleb_true 25 (0 + 10 + 20))) by lra. replace (25 - (0 + 10)) with 15 by lra. fold h1w.
    assert (Enew : fix_material (firstn 2 (o_rows h1w o0) ++
       [[0; 1000; nth 0 (fst (get_xi_rho [1000] 3)) 0; nth 0 (snd (get_xi_rho [1000] 3)) 0; 0]]) = new).
    { unfold o_rows, h1w, write_thk, tbl at 1. rewrite set_nth_same by auto. cbn [t_rows].
      change (t_rows (tbl h1 (o_tbl o0))) with (o_rows h1 o0). rewrite ER1, Hint1.
      cbn [nth set_nth store firstn app]. unfold fix_material. cbn [length nth Nat.sub].
      unfold cell at 1; cbn [nth]. rewrite (proj2 (Reqb_false (IZR mm) 0)) by (apply IZR_neq; lia). reflexivity. }
    rewrite Enew. unfold alloc. exact EV. }
  cbn [o_zmax map new rsum cell nth]. split; lra.
Qed.

Example C11_instance : exists h0 o0, vs_init [two_col] 0 D_1 R_kg true 3 = (h0, Ok o0) /\
  coherent h0 o0 /\ t_int (tbl h0 (o_tbl o0)) = false.
Proof.
  destruct (proj2 (C08_accepts_iff [two_col] 0 D_1 R_kg true 3 (lt01 _) two_col_wf))
    as (h' & o & E).
  { repeat split; auto using two_col_valid; try discriminate. intros [H _]; discriminate. }
  exists h', o. split; [exact E|]. split.
  - apply (C08_table_is_valid _ _ _ _ _ _ _ _ (lt01 _) two_col_wf ltac:(auto) E).
    intros (_ & H & _); discriminate.
  - destruct (init_inv _ _ _ _ _ _ _ _ (lt01 _) two_col_wf E) as (_ & _ & _ & _ & -> & _ & -> & _).
    reflexivity.
Qed.
