(** Specifications and lemmas for class_svm.py. *)
From Coq Require Import Reals List Bool ZArith Lia Lra.
From Verif Require Import Base M_generic P_generic M_profile P_profile Prop_profile M_vs_profile P_vs_profile Prop_vs_profile Prop_vs_query M_svm.
Import ListNotations.
Open Scope R_scope.

(** Non-decreasing sequences. *)
Definition nondecr (l : list R) : Prop := forall i j, (i <= j < length l)%nat -> nth i l 0 <= nth j l 0.

Lemma nondecr_step l : (forall i, (S i < length l)%nat -> nth i l 0 <= nth (S i) l 0) -> nondecr l.
Proof.
  intros H i j [Hij Hj]. induction Hij as [|j Hij IH]; [lra|].
  eapply Rle_trans; [apply IH; lia|apply H; lia].
Qed.

Lemma nondecr_app l1 l2 : nondecr l1 -> nondecr l2 -> (forall x y, In x l1 -> In y l2 -> x <= y) -> nondecr (l1 ++ l2).
Proof.
  intros H1 H2 H i j [Hij Hj]. rewrite app_length in Hj.
  destruct (Nat.lt_ge_cases j (length l1)).
  - rewrite !app_nth1 by lia. apply H1; lia.
  - destruct (Nat.lt_ge_cases i (length l1)).
    + rewrite app_nth1, app_nth2 by lia. apply H; apply nth_In; lia.
    + rewrite !app_nth2 by lia. apply H2; lia.
Qed.

Lemma nondecr_app_l l1 l2 : nondecr (l1 ++ l2) -> nondecr l1.
Proof. intros H i j Hij. specialize (H i j). rewrite app_length, !app_nth1 in H by lia. apply H; lia. Qed.

Lemma nondecr_cons x l : nondecr (x :: l) <-> nondecr l /\ (forall y, In y l -> x <= y).
Proof.
  split.
  - intros H. split.
    + intros i j Hij. apply (H (S i) (S j)). cbn; lia.
    + intros y Hy. apply (In_nth _ _ 0) in Hy as (k & Hk & <-). apply (H 0%nat (S k)). cbn; lia.
  - intros [H1 H2]. apply (nondecr_app [x] l); auto.
    + intros i j Hij. cbn in Hij. replace i with 0%nat by lia. replace j with 0%nat by lia. lra.
    + intros a b [<-|[]] Hb. auto.
Qed.

Lemma nondecr_firstn n l : nondecr l -> nondecr (firstn n l).
Proof. intros H. rewrite <- (firstn_skipn n l) in H. eapply nondecr_app_l; eauto. Qed.

Lemma nondecr_removelast l : nondecr l -> nondecr (removelast l).
Proof. destruct l; [auto|]. intros H. rewrite (app_removelast_last 0) in H by discriminate. eapply nondecr_app_l; eauto. Qed.

Lemma nondecr_one x : nondecr [x].
Proof. intros i j Hij. cbn in Hij. replace i with 0%nat by lia. replace j with 0%nat by lia. lra. Qed.

(** ** The grid of the smooth profile *)
Lemma svm_count_spec z1 : 5 / 2 < z1 ->
  (2 <= svm_count z1)%nat /\ INR (svm_count z1 - 1) / 10 < z1 - 12 / 5 <= INR (svm_count z1) / 10.
Proof.
  intros Hz. unfold svm_count, svm_top, svm_thk.
  set (q := (z1 - (5 / 2 - 1 / 10) - 0) / (1 / 10)).
  assert (Eq : q = 10 * (z1 - 12 / 5)) by (unfold q; field).
  destruct (ceil_spec q) as [H1 H2].
  assert (1 < ceil q)%Z by (apply lt_IZR; lra).
  assert (EI : INR (Z.to_nat (ceil q)) = IZR (ceil q)) by (rewrite INR_IZR_INZ, Z2Nat.id by lia; reflexivity).
  split; [lia|]. rewrite minus_INR by lia. rewrite EI. change (INR 1) with 1. lra.
Qed.

Lemma svm_grid_iff z1 i : 5 / 2 < z1 -> ((i < svm_count z1)%nat <-> INR i / 10 < z1 - 12 / 5).
Proof.
  intros Hz. destruct (svm_count_spec z1 Hz) as [Hn [H1 H2]]. split; intros H.
  - assert (INR i <= INR (svm_count z1 - 1)) by (apply le_INR; lia). lra.
  - destruct (Nat.lt_ge_cases i (svm_count z1)) as [|Hge]; [auto|]. apply le_INR in Hge. lra.
Qed.

Lemma svm_depths_length z1 : length (svm_depths z1) = svm_count z1.
Proof. unfold svm_depths. rewrite map_length, seq_length. reflexivity. Qed.

Lemma svm_depths_nth z1 i : (i < svm_count z1)%nat -> nth i (svm_depths z1) 0 = INR i / 10.
Proof.
  intros Hi. unfold svm_depths. rewrite (nth_indep _ 0 ((fun i => 0 + INR i * svm_thk) 0%nat)) by (rewrite map_length, seq_length; lia).
  rewrite (map_nth (fun i => 0 + INR i * svm_thk)), seq_nth by lia. unfold svm_thk. cbn [plus]. lra.
Qed.

Lemma diffs0_grid n : forall a, (0 < n)%nat -> diffs0 (map (fun i => 0 + INR i * svm_thk) (seq a n)) = repeat (1 / 10) (n - 1) ++ [0].
Proof.
  induction n as [|n IH]; intros a Hn; [lia|].
  destruct n as [|n]; [reflexivity|].
  cbn [seq map]. specialize (IH (S a) ltac:(lia)). cbn [seq map] in IH.
  change (diffs0 (0 + INR a * svm_thk :: 0 + INR (S a) * svm_thk :: map (fun i => 0 + INR i * svm_thk) (seq (S (S a)) n)))
    with ((0 + INR (S a) * svm_thk - (0 + INR a * svm_thk)) :: diffs0 (0 + INR (S a) * svm_thk :: map (fun i => 0 + INR i * svm_thk) (seq (S (S a)) n))).
  rewrite IH. replace (S (S n) - 1)%nat with (S (S n - 1)) by lia. cbn [repeat app]. f_equal.
  rewrite S_INR. unfold svm_thk. lra.
Qed.

Lemma svm_thicknesses z1 : 5 / 2 < z1 -> dep2thk (svm_depths z1) true = Ok (repeat (1 / 10) (svm_count z1 - 1) ++ [0]).
Proof.
  intros Hz. destruct (svm_count_spec z1 Hz) as [Hn _]. unfold dep2thk.
  assert (E : get (svm_depths z1) 0 = Ok 0).
  { unfold get, svm_depths. destruct (svm_count z1); [lia|]. cbn. f_equal. lra. }
  rewrite E. cbn [bind]. rewrite (proj2 (Reqb_true 0 0) eq_refl). cbn [negb].
  unfold svm_depths. rewrite diffs0_grid by lia. reflexivity.
Qed.

(** The analytical velocity at depth [z] below the top of the second layer. *)
Definition analytic (v z : R) : R := vs0 v * Rpower (1 + svm_k v * z) (1 / svm_n v).

Lemma svm_n_ge1 v : 1 <= svm_n v.
Proof. apply Rmax_l. Qed.
Lemma svm_k_pos v : 0 < svm_k v.
Proof. apply exp_pos. Qed.

Lemma analytic_0 v : analytic v 0 = vs0 v.
Proof. unfold analytic. rewrite Rmult_0_r, Rplus_0_r. unfold Rpower. rewrite ln_1, Rmult_0_r, exp_0. lra. Qed.

Lemma analytic_mono v a b : 0 < vs0 v -> 0 <= a <= b -> analytic v a <= analytic v b.
Proof.
  intros H0 Hab. unfold analytic. apply Rmult_le_compat_l; [lra|].
  pose proof (svm_k_pos v). pose proof (svm_n_ge1 v).
  apply Rle_Rpower_l.
  - apply Rlt_le, Rdiv_lt_0_compat; lra.
  - assert (0 <= svm_k v * a) by (apply Rmult_le_pos; lra).
    assert (svm_k v * a <= svm_k v * b) by (apply Rmult_le_compat_l; lra). lra.
Qed.

Lemma svm_analyt_length v z1 : length (svm_analyt v z1) = svm_count z1.
Proof. unfold svm_analyt. rewrite map_length. apply svm_depths_length. Qed.

Lemma svm_analyt_nth v z1 i : (i < svm_count z1)%nat -> nth i (svm_analyt v z1) 0 = analytic v (INR i / 10).
Proof.
  intros Hi. unfold svm_analyt.
  rewrite (nth_indep _ 0 ((fun z => vs0 v * Rpower (1 + svm_k v * z) (1 / svm_n v)) 0)) by (rewrite map_length, svm_depths_length; lia).
  rewrite (map_nth (fun z => vs0 v * Rpower (1 + svm_k v * z) (1 / svm_n v))), svm_depths_nth by lia. reflexivity.
Qed.

Lemma svm_analyt_nondecr v z1 : 0 < vs0 v -> nondecr (svm_analyt v z1).
Proof.
  intros H0 i j [Hij Hj]. rewrite svm_analyt_length in Hj. rewrite !svm_analyt_nth by lia.
  apply analytic_mono; auto. pose proof (pos_INR i). apply le_INR in Hij. lra.
Qed.

Lemma svm_analyt_hd v z1 : 5 / 2 < z1 -> get (svm_analyt v z1) 0 = Ok (vs0 v) /\ nth 0 (svm_analyt v z1) 0 = vs0 v.
Proof.
  intros Hz. destruct (svm_count_spec z1 Hz) as [Hn _].
  assert (E : nth 0 (svm_analyt v z1) 0 = vs0 v).
  { rewrite svm_analyt_nth by lia. change (INR 0) with 0. replace (0 / 10) with 0 by lra. apply analytic_0. }
  split; [|exact E]. unfold get. rewrite (nth_error_nth' _ 0) by (rewrite svm_analyt_length; lia). rewrite E. reflexivity.
Qed.

(** ** The cap *)
Lemma first_above_spec x l : match first_above x l with
  | None => forall y, In y l -> y <= x
  | Some j => (j < length l)%nat /\ x < nth j l 0 /\ forall i, (i < j)%nat -> nth i l 0 <= x
  end.
Proof.
  induction l as [|y l IH]; cbn [first_above]; [intros y []|].
  destruct (Rltb_spec x y) as [H|H].
  - cbn. split; [lia|]. split; [exact H|]. intros; lia.
  - destruct (first_above x l) as [j|].
    + destruct IH as (H1 & H2 & H3). cbn [length nth]. split; [lia|]. split; [exact H2|].
      intros [|i] Hi; [lra|]. apply H3; lia.
    + intros z [<-|Hz]; [lra|]. apply IH; auto.
Qed.

Lemma svm_capped_none c eta l : (forall y, In y l -> y <= c) -> svm_capped c eta l = Ok l.
Proof.
  intros H. unfold svm_capped. pose proof (first_above_spec c l) as Hs.
  destruct (first_above c l) as [j|]; [|reflexivity]. exfalso. destruct Hs as (Hj & Hc & _).
  pose proof (H _ (nth_In l 0 Hj)). lra.
Qed.

Lemma svm_capped_some c eta l : 0 < c -> 0 < eta <= 1 -> nondecr l -> (exists y, In y l /\ c < y) ->
  exists j, (j < length l)%nat /\ c * eta < nth j l 0 /\ (forall i, (i < j)%nat -> nth i l 0 <= c * eta) /\
    svm_capped c eta l = Ok (firstn j l ++ map (svm_ramp c eta (length l) j) (seq j (length l - j))).
Proof.
  intros Hc He Hl (y & Hy & Hcy). unfold svm_capped.
  assert (Hle : c * eta <= c) by (rewrite <- (Rmult_1_r c) at 2; apply Rmult_le_compat_l; lra).
  pose proof (first_above_spec c l) as Hs. destruct (first_above c l) as [j0|]; [|specialize (Hs y Hy); lra].
  pose proof (first_above_spec (c * eta) l) as Hs'. destruct (first_above (c * eta) l) as [j|].
  - destruct Hs' as (H1 & H2 & H3). exists j. auto.
  - specialize (Hs' y Hy). lra.
Qed.

Lemma ramp_bounds c eta N j i : 0 < c -> 0 < eta <= 1 -> (j <= i < N)%nat ->
  c * eta <= svm_ramp c eta N j i <= c /\ (forall i', (i <= i')%nat -> svm_ramp c eta N j i <= svm_ramp c eta N j i').
Proof.
  intros Hc He Hi. unfold svm_ramp.
  assert (HN : 0 < INR (N - j)) by (apply lt_0_INR; lia).
  assert (Hs : 0 <= c * (1 - eta) / INR (N - j)) by (apply Rmult_le_pos; [apply Rmult_le_pos; lra|apply Rlt_le, Rinv_0_lt_compat; lra]).
  pose proof (pos_INR (i - j)).
  assert (INR (i - j) <= INR (N - j)) by (apply le_INR; lia).
  split; [split|].
  - assert (0 <= c * (1 - eta) / INR (N - j) * INR (i - j)) by (apply Rmult_le_pos; lra). lra.
  - assert (c * (1 - eta) / INR (N - j) * INR (i - j) <= c * (1 - eta) / INR (N - j) * INR (N - j)) by (apply Rmult_le_compat_l; lra).
    replace (c * (1 - eta) / INR (N - j) * INR (N - j)) with (c * (1 - eta)) in * by (field; lra). lra.
  - intros i' Hi'. apply Rplus_le_compat_l, Rmult_le_compat_l; [lra|]. apply le_INR. lia.
Qed.

(** What capping does to a non-decreasing positive sequence. *)
Lemma svm_capped_spec c eta l : 0 < c -> 0 < eta <= 1 -> l <> [] -> nondecr l -> (forall y, In y l -> 0 < y) ->
  exists l', svm_capped c eta l = Ok l' /\ length l' = length l /\ nondecr l' /\
    (forall y, In y l' -> 0 < y <= c) /\
    ((exists y, In y l /\ c < y) -> c * eta < nth 0 l 0 -> nth 0 l' 0 = c * eta) /\
    (forall i, (i < length l)%nat -> nth i l 0 <= c * eta -> nth i l' 0 = nth i l 0) /\
    ((forall y, In y l -> y <= c) -> l' = l).
Proof.
  intros Hc He Hne Hl Hpos.
  assert (Hce : 0 < c * eta) by (apply Rmult_lt_0_compat; lra).
  destruct (first_above c l) as [j0|] eqn:E0; pose proof (first_above_spec c l) as Hs; rewrite E0 in Hs.
  - destruct Hs as (Hj0 & Hcj0 & _).
    assert (Hex : exists y, In y l /\ c < y) by (exists (nth j0 l 0); split; [apply nth_In; auto|auto]).
    destruct (svm_capped_some c eta l Hc He Hl Hex) as (j & Hj & Hjc & Hbelow & E).
    set (r := map (svm_ramp c eta (length l) j) (seq j (length l - j))) in *.
    assert (Lr : length r = (length l - j)%nat) by (unfold r; rewrite map_length, seq_length; reflexivity).
    assert (Lf : length (firstn j l) = j) by (rewrite firstn_length; lia).
    assert (Hr : forall k, (k < length l - j)%nat -> nth k r 0 = svm_ramp c eta (length l) j (j + k)).
    { intros k Hk. unfold r. rewrite (nth_indep _ 0 (svm_ramp c eta (length l) j 0)) by (rewrite map_length, seq_length; lia).
      rewrite map_nth, seq_nth by lia. reflexivity. }
    assert (Hrb : forall y, In y r -> c * eta <= y <= c).
    { intros y Hy. apply (In_nth _ _ 0) in Hy as (k & Hk & <-). rewrite Lr in Hk. rewrite Hr by lia.
      apply ramp_bounds; auto; lia. }
    assert (Hfb : forall y, In y (firstn j l) -> 0 < y <= c * eta).
    { intros y Hy. apply (In_nth _ _ 0) in Hy as (k & Hk & <-). rewrite Lf in Hk.
      assert (EE : nth k (firstn j l) 0 = nth k l 0).
      { rewrite <- (firstn_skipn j l) at 2. rewrite app_nth1 by lia. reflexivity. }
      rewrite EE. split; [apply Hpos, nth_In; lia|apply Hbelow; lia]. }
    exists (firstn j l ++ r). split; [exact E|]. split; [rewrite app_length; lia|]. split; [|split; [|split; [|split]]].
    + apply nondecr_app; [apply nondecr_firstn; auto| |].
      * intros a b [Hab Hb]. rewrite Lr in Hb. rewrite !Hr by lia. apply ramp_bounds; auto; lia.
      * intros x y Hx Hy. specialize (Hfb x Hx). specialize (Hrb y Hy). lra.
    + intros y Hy. apply in_app_iff in Hy as [Hy|Hy]; [|specialize (Hrb y Hy); lra].
      specialize (Hfb y Hy). assert (c * eta <= c) by (rewrite <- (Rmult_1_r c) at 2; apply Rmult_le_compat_l; lra). lra.
    + intros _ H0. assert (Ej : j = 0%nat).
      { destruct j as [|j]; [auto|]. specialize (Hbelow 0%nat ltac:(lia)). lra. }
      subst j. cbn [firstn app]. rewrite Hr by lia. unfold svm_ramp. rewrite Nat.sub_diag. cbn [INR plus]. lra.
    + intros i Hi Hile. destruct (Nat.lt_ge_cases i j).
      * rewrite app_nth1 by lia. rewrite <- (firstn_skipn j l) at 2. rewrite app_nth1 by lia. reflexivity.
      * exfalso. assert (nth j l 0 <= nth i l 0) by (apply Hl; lia). lra.
    + intros Hall. specialize (Hall _ (nth_In l 0 Hj0)). lra.
  - exists l. split; [apply svm_capped_none; auto|]. split; [auto|]. split; [auto|]. split; [intros; split; auto|].
    split; [intros (y & Hy & Hcy); specialize (Hs y Hy); lra|]. auto.
Qed.

(** ** Sampling a profile *)

(** An object whose arrays are as they were just after construction. *)
Definition svm_ok (h : heap) (s : svm) : Prop :=
  coherent h (s_obj s) /\ layers_of (o_rows h (s_obj s)) = base_layers h s /\
  o_zmax (s_obj s) = rsum (thk_of (base_layers h s)) /\ (s_arr s < length h)%nat /\ (o_thk (s_obj s) < length h)%nat.

(** Velocities read at two depths of a profile. *)
Lemma contains_mono thk a b i j : interior_pos thk -> contains thk a i -> contains thk b j -> a <= b -> (i <= j)%nat.
Proof.
  intros Hi (Hi1 & Hi2 & Hi3) (Hj1 & Hj2 & Hj3) Hab.
  destruct (Nat.le_gt_cases i j) as [|Hgt]; [auto|]. exfalso.
  specialize (Hj3 ltac:(lia)).
  destruct (Nat.eq_dec (S j) i) as [E|]; [rewrite E in Hj3; lra|].
  pose proof (top_strict thk (S j) i Hi ltac:(lia) ltac:(lia)). lra.
Qed.

Lemma vs_init_float h loc du ru hs f h' o : t_ncol (tbl h loc) = 2%nat -> vs_init h loc du ru hs f = (h', Ok o) ->
  t_int (tbl h' (o_tbl o)) = false.
Proof.
  intros Hc E. unfold vs_init in E.
  destruct (check_Vs_profile_format (as_pyobj (tbl h loc))) as [u|]; [|discriminate].
  rewrite Hc in E. cbn [Nat.eqb andb] in E.
  destruct du, ru; try discriminate; cbn [alloc] in E;
  (destruct calc_Vs30 as [v|]; [|discriminate]; injection E as <- <-; cbn [o_tbl];
   rewrite tbl_alloc_new; reflexivity).
Qed.

Lemma vs_init_grows h loc du ru hs f h' o : vs_init h loc du ru hs f = (h', Ok o) -> length h' = S (length h) /\ o_tbl o = length h.
Proof.
  intros E. unfold vs_init in E.
  destruct (check_Vs_profile_format (as_pyobj (tbl h loc))) as [u|]; [|discriminate].
  destruct du, ru; try discriminate; cbn [orb andb] in E;
  destruct (Nat.eqb (t_ncol (tbl h loc)) 5) eqn:E5; cbn [andb] in E;
  destruct (t_int (tbl h loc)) eqn:Ei; try discriminate;
  destruct (Nat.eqb (t_ncol (tbl h loc)) 2) eqn:E2; cbn [alloc] in E;
  (destruct calc_Vs30 as [v|]; [|discriminate]; injection E as <- <-; cbn [o_tbl]; rewrite ?app_length, ?set_nth_length; cbn; lia).
Qed.

(** A profile sampled at given thicknesses. *)
Lemma query_profile h o ta mid : coherent h o -> ta <> [] -> interior_pos ta -> 0 <= last ta 0 ->
  (mid = true -> last ta 0 <> 0) ->
  exists h' o' vs, class_query_given_thk_profile h o (ThkArray ta) mid true = (h', Ok o') /\
    coherent h' o' /\ t_int (tbl h' (o_tbl o')) = false /\ length vs = length ta /\
    layers_of (o_rows h' o') = combine ta vs ++ (if Reqb (last ta 0) 0 then [] else [(0, last vs 0)]) /\
    (forall k, (k < length ta)%nat -> exists j,
        contains (thk_of (layers_of (o_rows h o))) (rsum (firstn k ta) + (if mid then nth k ta 0 / 2 else 0)) j /\
        nth_error (vs_of (layers_of (o_rows h o))) j = Some (nth k vs 0)) /\
    (forall l, (l < length h)%nat -> tbl h' l = tbl h l) /\ (length h <= length h')%nat /\ (length h <= o_tbl o')%nat.
Proof.
  intros Hco Hne Hi H0 Hmid.
  set (p := layers_of (o_rows h o)).
  assert (Hg : good_rows true (o_rows h o)) by apply Hco.
  assert (Hp : p <> []) by (unfold p; apply good_rows_ne in Hg; destruct (o_rows h o); [congruence|discriminate]).
  assert (HF0 : Forall (fun h => 0 <= h) ta).
  { rewrite (app_removelast_last 0 Hne). apply Forall_app. split; [|constructor; auto].
    eapply Forall_impl; [|exact Hi]. cbn; intros; lra. }
  destruct (C03_query_given_thk p ta mid Hp Hne HF0) as (vs & Evs & Hvs & HLv).
  assert (HL : length vs = length ta).
  { rewrite HLv. destruct mid; cbn [andb]; [|reflexivity]. rewrite (proj2 (Reqb_false _ 0)); auto. }
  assert (HVpos : Forall (fun v => 0 < v) vs).
  { apply Forall_forall. intros v Hv. apply (In_nth _ _ 0) in Hv as (k & Hk & <-).
    destruct (Hvs k Hk) as (j & _ & Hj). apply nth_error_In in Hj. unfold p in Hj. rewrite vs_of_layers in Hj.
    apply in_map_iff in Hj as (r & <- & Hr). pose proof (good_rows_cells _ _ Hg) as HC.
    rewrite Forall_forall in HC. apply HC, Hr. }
  destruct (build_profile h ta vs true) as (h' & o' & E & Hco' & Hzm & Hlay & Hold); auto.
  exists h', o', vs. split.
  { unfold class_query_given_thk_profile, class_thk_arg. fold p. rewrite Evs, HL, Nat.eqb_refl. exact E. }
  split; [exact Hco'|]. split; [eapply vs_init_float; [|exact E]; rewrite tbl_alloc_new; reflexivity|].
  split; [exact HL|]. split.
  { destruct (Reqb_spec (last ta 0) 0) as [E0|E0].
    - destruct Hlay as [Hlay|(_ & H & _)]; [rewrite app_nil_r; exact Hlay|contradiction].
    - destruct Hlay as [Hlay|(_ & _ & Hlay)]; [|exact Hlay]. exfalso.
      destruct (C08_constructed_profile (h ++ [mktable false 2 (table2 ta vs)]) (length h) D_1 R_kg true 3 h' o') as (_ & Hz & _).
      + rewrite app_length; cbn; lia.
      + rewrite tbl_alloc_new. apply (good_rows_wf false). apply table2_good; auto.
      + exact E.
      + specialize (Hz eq_refl). rewrite <- thk_of_layers, Hlay, combine_thk in Hz by lia. contradiction. }
  split; [intros k Hk; apply Hvs; lia|]. split; [exact Hold|].
  destruct (vs_init_grows _ _ _ _ _ _ _ _ E) as [-> ->]. rewrite app_length. lia.
Qed.

Lemma truncate_grows h o d V h' o' : truncate h o d V = (h', Ok o') -> (length h <= length h')%nat.
Proof.
  intros E. unfold truncate in E.
  destruct d as [d|]; [|discriminate]. destruct (Rleb d 0); [discriminate|].
  destruct V as [V|]; [|discriminate]. destruct (Rleb V 0); [discriminate|].
  destruct (trunc_scan (o_thks h o) d 0 0) as [[j x]|x]; cbn [alloc] in E;
    apply vs_init_grows in E as [E _]; rewrite E, app_length; unfold write_thk; rewrite set_nth_length; lia.
Qed.

(** Truncation seen through the first two columns. *)
Lemma truncate_layers h o d V : coherent h o -> t_int (tbl h (o_tbl o)) = false -> 0 < d -> 0 < V ->
  let L := layers_of (o_rows h o) in
  exists j h' o', cut_layer (thk_of L) d j /\ truncate h o (Some d) (Some V) = (h', Ok o') /\
    layers_of (o_rows h' o') = firstn j L ++ [(d - top (thk_of L) j, nth j (vs_of L) 0); (0, V)] /\
    o_zmax o' = d /\ coherent h' o' /\
    (forall l, l <> o_tbl o -> (l < length h)%nat -> tbl h' l = tbl h l) /\ (length h <= length h')%nat.
Proof.
  intros Hco Hint Hd HV L.
  destruct (truncate_spec h o d V Hco Hint Hd HV)
    as (j & h' & o' & m & Hcut & E & Hm & Hrows & _ & Hz & Hn & Hco' & _ & Hoth & _).
  set (rows := o_rows h o) in *.
  assert (Hjr : (j < length rows)%nat) by (destruct Hcut as (Hj & _); rewrite map_length in Hj; exact Hj).
  assert (Hg : good_rows true rows) by apply Hco.
  assert (H5 : length (nth j rows []) = 5%nat).
  { pose proof (good_rows_wf _ _ Hg) as HW. rewrite Forall_forall in HW. apply HW, nth_In, Hjr. }
  exists j, h', o'. unfold L. rewrite !thk_of_layers, !vs_of_layers.
  split; [exact Hcut|]. split; [exact E|]. split.
  { rewrite Hrows. unfold layers_of. rewrite map_app, firstn_map. cbn [map]. do 2 f_equal.
    { f_equal.
      - unfold cell. rewrite set_nth_other by lia. rewrite set_nth_same by lia. reflexivity.
      - rewrite (nth_indep _ 0 (cell 1 [])) by (rewrite map_length; lia). rewrite map_nth. unfold cell.
        rewrite !set_nth_other by lia. reflexivity. } }
  split; [exact Hz|]. split; [exact Hco'|]. split; [exact Hoth|]. eapply truncate_grows; eauto.
Qed.

Lemma thk_of_app' p q : thk_of (p ++ q) = thk_of p ++ thk_of q.
Proof. apply map_app. Qed.
Lemma vs_of_app p q : vs_of (p ++ q) = vs_of p ++ vs_of q.
Proof. apply map_app. Qed.
Lemma vs_of_firstn n p : vs_of (firstn n p) = firstn n (vs_of p).
Proof. unfold vs_of. rewrite firstn_map. reflexivity. Qed.
Lemma thk_of_firstn n p : thk_of (firstn n p) = firstn n (thk_of p).
Proof. unfold thk_of. rewrite firstn_map. reflexivity. Qed.

(** Sampling an SVM at the thicknesses [ta], then cutting at its z1. *)
Definition sample_and_cut (h : heap) (s : svm) (thk : thk_arg) (mid : bool) : heap * res vsobj :=
  match class_query_given_thk_profile h (s_obj s) thk mid true with
  | (h1, Err e) => (h1, Err e)
  | (h1, Ok o) => truncate h1 o (Some (s_z1 s)) (s_bedrock s)
  end.

(** The velocity of layer [k] of a profile made of layers [ta], read from [p]. *)
Definition reads (p : list layer) (ta : list R) (mid : bool) (k : nat) (v : R) : Prop :=
  query_Vs_at_depth p [rsum (firstn k ta) + (if mid then nth k ta 0 / 2 else 0)] = Ok [v].

Lemma sample_and_cut_spec h s ta mid c : svm_ok h s -> s_bedrock s = Some c -> 0 < c -> 0 < s_z1 s ->
  ta <> [] -> interior_pos ta -> 0 <= last ta 0 -> (mid = true -> last ta 0 <> 0) ->
  nondecr (vs_of (base_layers h s)) -> (forall v, In v (vs_of (base_layers h s)) -> v <= c) ->
  exists h' o' q x v, sample_and_cut h s (ThkArray ta) mid = (h', Ok o') /\ coherent h' o' /\ o_zmax o' = s_z1 s /\
    layers_of (o_rows h' o') = q ++ [(x, v); (0, c)] /\
    (length q <= length ta)%nat /\ thk_of q = firstn (length q) ta /\
    (forall k, (k < length q)%nat -> reads (base_layers h s) ta mid k (nth k (vs_of q) 0)) /\
    0 < x /\ rsum (thk_of q) + x = s_z1 s /\ (x <= nth (length q) ta 0 \/ rsum ta < s_z1 s /\ x = s_z1 s - rsum ta) /\
    In v (vs_of (base_layers h s)) /\ nondecr (vs_of q ++ [v; c]) /\
    svm_ok h' s /\ base_layers h' s = base_layers h s.
Proof.
  intros (Hco & HL & Hzm & Harr & Hthk0) Hbed Hc Hz Hne Hi H0 Hmid Hnd Hcap.
  set (p := base_layers h s) in *.
  destruct (query_profile h (s_obj s) ta mid Hco Hne Hi H0 Hmid) as
    (h1 & o1 & vs & EQ & Hco1 & Hint & HLv & HL1 & Hread & Hold1 & Hgr1 & Hfresh).
  rewrite HL in Hread.
  set (tail := if Reqb (last ta 0) 0 then [] else [(0, last vs 0)]) in *.
  destruct (truncate_layers h1 o1 (s_z1 s) c Hco1 Hint Hz Hc) as (j & h' & o' & Hcut & ET & HL' & Hz' & Hco' & Hold' & Hgr').
  rewrite HL1 in *.
  set (L := combine ta vs ++ tail) in *.
  assert (Hg : good_rows true (o_rows h (s_obj s))) by apply Hco.
  assert (Hp : p <> []) by (rewrite <- HL; apply good_rows_ne in Hg; destruct (o_rows h (s_obj s)); [congruence|discriminate]).
  assert (Hpi : interior_pos (thk_of p)) by (rewrite <- HL, thk_of_layers; apply good_rows_interior, Hg).
  assert (HF0 : Forall (fun h => 0 <= h) ta).
  { rewrite (app_removelast_last 0 Hne). apply Forall_app. split; [|constructor; auto].
    eapply Forall_impl; [|exact Hi]. cbn; intros; lra. }
  assert (Hdep : forall k, 0 <= rsum (firstn k ta) + (if mid then nth k ta 0 / 2 else 0)).
  { intros k. pose proof (top_mono ta HF0 0 k ltac:(lia)) as Ht. unfold top in Ht. cbn in Ht.
    assert (0 <= nth k ta 0) by (destruct (nth_in_or_default k ta 0) as [Hin| ->]; [rewrite Forall_forall in HF0; auto|lra]).
    destruct mid; lra. }
  assert (Htl : tail = [] \/ tail = [(0, last vs 0)]) by (unfold tail; destruct (Reqb _ _); auto).
  assert (Hlast : In (last vs 0) vs).
  { apply last_In. destruct vs; [destruct ta; [congruence|discriminate]|discriminate]. }
  assert (Hvs_p : forall v, In v vs -> In v (vs_of p)).
  { intros v Hv. apply (In_nth _ _ 0) in Hv as (k & Hk & <-). destruct (Hread k ltac:(lia)) as (i & _ & Hi').
    eapply nth_error_In; eauto. }
  assert (HvsL : forall v, In v (vs_of L) -> In v (vs_of p)).
  { intros v Hv. unfold L in Hv. rewrite vs_of_app, combine_vs in Hv by auto. apply in_app_iff in Hv as [Hv|Hv]; auto.
    destruct Htl as [-> | ->]; [destruct Hv|]. destruct Hv as [<-|[]]. auto. }
  assert (Hvnd : nondecr vs).
  { intros a b [Hab Hb]. destruct (Hread a ltac:(lia)) as (ia & Ca & Ea). destruct (Hread b ltac:(lia)) as (ib & Cb & Eb).
    assert (Hle : (ia <= ib)%nat).
    { apply (contains_mono _ _ _ _ _ Hpi Ca Cb).
      destruct (Nat.eq_dec a b) as [->|]; [lra|].
      pose proof (top_mono ta HF0 (S a) b ltac:(lia)) as Ht. rewrite top_S in Ht by lia. unfold top in Ht.
      assert (0 <= nth a ta 0) by (rewrite Forall_forall in HF0; apply HF0, nth_In; lia).
      assert (0 <= nth b ta 0) by (rewrite Forall_forall in HF0; apply HF0, nth_In; lia).
      destruct mid; lra. }
    specialize (Hnd ia ib). rewrite (nth_error_nth _ _ 0 Ea), (nth_error_nth _ _ 0 Eb) in Hnd. apply Hnd.
    split; [auto|]. apply nth_error_Some. congruence. }
  assert (HLnd : nondecr (vs_of L)).
  { unfold L. rewrite vs_of_app, combine_vs by auto. destruct Htl as [-> | ->]; cbn [vs_of map]; [rewrite app_nil_r; auto|].
    apply nondecr_app; auto; [apply nondecr_one|]. intros x y Hx [<-|[]]. cbn [snd].
    apply (In_nth _ _ 0) in Hx as (k & Hk & <-). 
    assert (Hvne : vs <> []) by (destruct vs; [cbn in Hk; lia|discriminate]).
    destruct (exists_last Hvne) as (w & a & Ew). rewrite Ew, last_last.
    specialize (Hvnd k (length w)). rewrite Ew in Hvnd, Hk. rewrite app_length in Hvnd, Hk. cbn in Hvnd, Hk.
    rewrite (app_nth2 w [a] 0 (Nat.le_refl _)), Nat.sub_diag in Hvnd. cbn in Hvnd. apply Hvnd. lia. }
  destruct Hcut as (Hj & Hcut1 & Hcut2).
  assert (HLlen : length L = (length ta + length tail)%nat) by (unfold L; rewrite app_length, combine_length; lia).
  assert (Htlen : (length tail <= 1)%nat) by (destruct Htl as [-> | ->]; cbn; lia).
  assert (HthkL : length (thk_of L) = length L) by (unfold thk_of; apply map_length).
  assert (Hjle : (j <= length ta)%nat) by lia.
  assert (Lq : length (firstn j L) = j) by (rewrite firstn_length; lia).
  assert (Hthk : thk_of L = ta ++ thk_of tail) by (unfold L; rewrite thk_of_app', combine_thk by auto; reflexivity).
  assert (Hfn : firstn j (thk_of L) = firstn j ta).
  { rewrite Hthk, firstn_app. replace (j - length ta)%nat with 0%nat by lia. cbn. apply app_nil_r. }
  set (x := s_z1 s - top (thk_of L) j) in *.
  set (v := nth j (vs_of L) 0) in *.
  assert (HvL : length (vs_of L) = length L) by (unfold vs_of; apply map_length).
  assert (Hv : In v (vs_of L)) by (apply nth_In; lia).
  exists h', o', (firstn j L), x, v.
  split. { unfold sample_and_cut. rewrite EQ, Hbed. exact ET. }
  split; [exact Hco'|]. split; [exact Hz'|]. split; [exact HL'|]. split; [lia|].
  split. { rewrite Lq, thk_of_firstn. exact Hfn. }
  split.
  { rewrite Lq. intros k Hk. destruct (Hread k ltac:(lia)) as (i & Ci & Ei). unfold reads.
    apply (query_contains p _ i); auto. rewrite Ei. f_equal. rewrite vs_of_firstn.
    unfold L. rewrite vs_of_app, combine_vs by auto.
    assert (EN : nth k (firstn j (vs ++ vs_of tail)) 0 = nth k (vs ++ vs_of tail) 0).
    { rewrite <- (firstn_skipn j (vs ++ vs_of tail)) at 2. rewrite app_nth1; [reflexivity|].
      rewrite firstn_length, app_length. lia. }
    rewrite EN, app_nth1 by lia. reflexivity. }
  split; [unfold x; lra|]. split.
  { rewrite thk_of_firstn. unfold x, top. lra. }
  split.
  { rewrite Lq. unfold x. destruct Hcut2 as [Hc2|Hc2].
    - rewrite top_S in Hc2 by lia. left. destruct (Nat.lt_ge_cases j (length ta)) as [Hlt|Hge].
      + rewrite Hthk, app_nth1 in Hc2 by lia. rewrite Hthk. lra.
      + exfalso. rewrite Hthk, app_nth2 in Hc2 by lia. replace (j - length ta)%nat with 0%nat in Hc2 by lia.
        rewrite <- Hthk in Hc2. assert (nth 0 (thk_of tail) 0 = 0) by (destruct Htl as [-> | ->]; reflexivity). lra.
    - destruct (Nat.eq_dec (length tail) 0) as [E0|E0].
      + (* the last thickness was zero: the layer is stretched *)
        assert (Et : tail = []) by (destruct tail; [auto|discriminate]).
        right. assert (Elast : last ta 0 = 0).
        { revert Et. unfold tail. destruct (Reqb_spec (last ta 0) 0); [auto|discriminate]. }
        assert (Ej : j = (length ta - 1)%nat) by lia.
        rewrite (top_last ta Hne), Elast, <- Ej. unfold top in Hcut1 |- *. rewrite Hfn in Hcut1. rewrite ?Hfn. lra.
      + right. assert (Ej : j = length ta) by lia. unfold top in Hcut1 |- *. rewrite Hfn, Ej, firstn_all in Hcut1. rewrite Hfn, Ej, firstn_all. lra. }
  split; [auto|]. split.
  { change [v; c] with ([v] ++ [c]). rewrite app_assoc. apply nondecr_app; [|apply nondecr_one|].
    - rewrite vs_of_firstn. unfold v.
      replace (firstn j (vs_of L) ++ [nth j (vs_of L) 0]) with (firstn (S j) (vs_of L)); [apply nondecr_firstn; auto|].
      assert (Hjv : (j < length (vs_of L))%nat) by lia. clear -Hjv.
      revert j Hjv. induction (vs_of L) as [|a l IH]; intros [|j] Hj; cbn in *; try lia; [reflexivity|]. f_equal. apply IH. lia.
    - intros a b Ha [<-|[]]. apply Hcap. apply in_app_iff in Ha as [Ha|[<-|[]]]; [|auto].
      rewrite vs_of_firstn in Ha. apply HvsL. rewrite <- (firstn_skipn j (vs_of L)). apply in_app_iff. auto. }
  assert (Hsame : forall l, (l < length h)%nat -> tbl h' l = tbl h l).
  { intros l Hl. rewrite Hold' by lia. apply Hold1. auto. }
  assert (HB : base_layers h' s = p).
  { unfold p, base_layers. rewrite Hsame by auto. reflexivity. }
  split; [|exact HB].
  destruct Hco as (Hc1 & Hc2 & Hc3 & Hc4).
  unfold svm_ok. rewrite HB.
  assert (ER : o_rows h' (s_obj s) = o_rows h (s_obj s)) by (unfold o_rows; rewrite Hsame by auto; reflexivity).
  split; [|split; [rewrite ER; exact HL|split; [exact Hzm|lia]]].
  unfold coherent. rewrite ER. split; [lia|]. split; [rewrite Hsame by auto; exact Hc2|]. split; [exact Hc3|].
  unfold o_thks in *. rewrite Hsame by auto. exact Hc4.
Qed.
