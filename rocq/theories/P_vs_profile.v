(** Specifications and lemmas for class_Vs_profile.py. *)
From Coq Require Import Reals List Bool ZArith Lia Lra.
From Verif Require Import Base M_generic P_generic M_profile P_profile M_vs_profile.
Import ListNotations.
Open Scope R_scope.

(** ** Specification of tables *)

(** A valid row: positive thickness and velocity; with five columns positive
    damping and density and a positive integer material number.  In the last row
    thickness and material number may be zero. *)
Definition good_row (five is_last : bool) (r : list R) : Prop :=
  exists thk vs tl, r = thk :: vs :: tl /\
    (if is_last then 0 <= thk else 0 < thk) /\ 0 < vs /\
    (if five then exists xi rho (m : Z), tl = [xi; rho; IZR m] /\
        0 < xi /\ 0 < rho /\ (if is_last then (0 <= m)%Z else (0 < m)%Z)
     else tl = []).

Definition good_rows (five : bool) (rows : list (list R)) : Prop :=
  exists init lst, rows = init ++ [lst] /\ Forall (good_row five false) init /\ good_row five true lst.

Definition valid_table (t : table) : Prop :=
  exists five, t_ncol t = (if five : bool then 5 else 2)%nat /\ good_rows five (t_rows t).

Definition table_wf (t : table) : Prop := Forall (fun r => length r = t_ncol t) (t_rows t).

(** ** Heap facts *)
Lemma set_nth_length {A} i (x : A) l : length (set_nth i x l) = length l.
Proof. revert i; induction l; intros [|i]; cbn; auto. Qed.

Lemma set_nth_same {A} i (x d : A) l : (i < length l)%nat -> nth i (set_nth i x l) d = x.
Proof. revert i; induction l; intros [|i]; cbn; intros; try lia; auto. apply IHl; lia. Qed.

Lemma set_nth_other {A} i j (x d : A) l : i <> j -> nth j (set_nth i x l) d = nth j l d.
Proof. revert i j; induction l; intros [|i] [|j]; cbn; intros; try congruence; auto. Qed.

Lemma set_nth_id {A} i (d : A) l : set_nth i (nth i l d) l = l.
Proof. revert i; induction l; intros [|i]; cbn; f_equal; auto. Qed.

Lemma set_nth_app {A} (x y : A) l1 l2 : set_nth (length l1) x (l1 ++ y :: l2) = l1 ++ x :: l2.
Proof. induction l1; cbn; f_equal; auto. Qed.

Lemma set_nth_inj {A} i (x d : A) l : (i < length l)%nat -> set_nth i x l = l -> x = nth i l d.
Proof. intros H E. rewrite <- E. symmetry. apply set_nth_same; auto. Qed.

Lemma tbl_alloc_old h t l : (l < length h)%nat -> tbl (h ++ [t]) l = tbl h l.
Proof. intros. unfold tbl. rewrite app_nth1; auto. Qed.

Lemma tbl_alloc_new h t : tbl (h ++ [t]) (length h) = t.
Proof. unfold tbl. rewrite app_nth2, Nat.sub_diag; auto. Qed.

Lemma last_snoc {A} (l : list A) x d : last (l ++ [x]) d = x.
Proof. apply last_last. Qed.

(** ** The validator on real tables *)
Lemma row_ok_good five l r : row_ok five l (map Fin r) <-> good_row five l r.
Proof.
  unfold row_ok, good_row. split.
  - intros (thk & vs & tl & E & H1 & H2 & H3).
    destruct r as [|a [|b r]]; try discriminate. cbn in E. injection E as -> -> E.
    exists thk, vs, r. repeat split; auto. destruct five.
    + destruct H3 as (xi & rho & m & -> & H).
      destruct r as [|c [|d [|e [|]]]]; try discriminate. cbn in E. injection E as -> -> ->.
      exists xi, rho, m. auto.
    + subst tl. destruct r; [auto|discriminate].
  - intros (thk & vs & tl & -> & H1 & H2 & H3). exists thk, vs, (map Fin tl).
    repeat split; auto. destruct five.
    + destruct H3 as (xi & rho & m & -> & H). exists xi, rho, m. auto.
    + subst; reflexivity.
Qed.

Lemma map_snoc_inv {A B} (f : A -> B) l init x :
  map f l = init ++ [x] -> exists l' a, l = l' ++ [a] /\ map f l' = init /\ f a = x.
Proof.
  intros E. destruct (snoc_cases l) as [->|(l' & a & ->)]; [destruct init; discriminate|].
  rewrite map_app in E. cbn in E. apply app_inj_tail in E as [E1 E2]. eauto.
Qed.

Lemma valid_table_iff t : valid_Vs_array (as_pyobj t) <-> valid_table t.
Proof.
  unfold valid_Vs_array, valid_table, as_pyobj, good_rows. split.
  - intros (five & init & lst & E & H1 & H2). injection E as E0 E.
    apply map_snoc_inv in E as (init' & lst' & E & <- & <-).
    exists five. split; [exact E0|]. exists init', lst'. split; [exact E|].
    rewrite row_ok_good in H2. split; [|exact H2].
    rewrite Forall_map in H1. eapply Forall_impl; [|exact H1]. intros r. apply row_ok_good.
  - intros (five & E0 & init & lst & E & H1 & H2).
    exists five, (map (map Fin) init), (map Fin lst). rewrite E0, E, map_app. split; [reflexivity|].
    rewrite row_ok_good. split; [|exact H2].
    rewrite Forall_map. eapply Forall_impl; [|exact H1]. intros r. apply row_ok_good.
Qed.

Lemma check_table t : table_wf t ->
  (check_Vs_profile_format (as_pyobj t) = Ok tt <-> valid_table t).
Proof.
  intros Hw. rewrite <- valid_table_iff. split.
  - apply check_Vs_profile_format_sound. cbn. rewrite Forall_map.
    eapply Forall_impl; [|exact Hw]. intros r. cbn. rewrite map_length. auto.
  - apply check_Vs_profile_format_complete.
Qed.

Lemma check_table_complete t : valid_table t -> check_Vs_profile_format (as_pyobj t) = Ok tt.
Proof. intros H. apply check_Vs_profile_format_complete, valid_table_iff, H. Qed.

Lemma good_rows_wf five rows : good_rows five rows ->
  Forall (fun r => length r = if five then 5%nat else 2%nat) rows.
Proof.
  intros (init & lst & -> & H1 & H2).
  assert (HL : forall l r, good_row five l r -> length r = if five then 5%nat else 2%nat).
  { intros l r (a & b & tl & -> & _ & _ & H). destruct five; [|subst; reflexivity].
    destruct H as (? & ? & ? & -> & _). reflexivity. }
  apply Forall_app; split; [|constructor; [eapply HL; eauto|constructor]].
  eapply Forall_impl; [|exact H1]. intros; eapply HL; eauto.
Qed.

Lemma good_rows_ne five rows : good_rows five rows -> rows <> [].
Proof. intros (init & lst & -> & _) E. destruct init; discriminate. Qed.

(** The two leading columns of valid rows make a [good_profile]. *)
Lemma good_row_cells five l r : good_row five l r -> 0 <= cell 0 r /\ 0 < cell 1 r.
Proof. intros (a & b & tl & -> & H1 & H2 & _). cbn. destruct l; lra. Qed.

Lemma good_row_pos five r : good_row five false r -> 0 < cell 0 r.
Proof. intros (a & b & tl & -> & H1 & H2 & _). exact H1. Qed.

Lemma good_rows_cells five rows : good_rows five rows ->
  Forall (fun r => 0 <= cell 0 r /\ 0 < cell 1 r) rows.
Proof.
  intros (init & lst & -> & H1 & H2). apply Forall_app. split.
  - eapply Forall_impl; [|exact H1]. intros; eapply good_row_cells; eauto.
  - constructor; [|constructor]. eapply good_row_cells; eauto.
Qed.

(** ** The constructor *)
Definition inplace (t : table) (du : dunit) (ru : runit) : bool :=
  Nat.eqb (t_ncol t) 5 && (match ru with R_g => true | _ => false end
                           || match du with D_pct => true | _ => false end).

Definition caller_after (h : heap) (loc : nat) (du : dunit) (ru : runit) : heap :=
  if inplace (tbl h loc) du ru
  then set_nth loc (mktable false 5 (map (convert_row du ru) (t_rows (tbl h loc)))) h else h.

Definition base_rows (t : table) (du : dunit) (ru : runit) (f : nat) : list (list R) :=
  if Nat.eqb (t_ncol t) 2 then build_from_2 (t_rows t) f else map (convert_row du ru) (t_rows t).

Definition appends (t : table) (hs : bool) : bool :=
  hs && negb (Reqb (last (map (cell 0) (t_rows t)) 0) 0).

Definition final_rows (t : table) (du : dunit) (ru : runit) (hs : bool) (f : nat) : list (list R) :=
  let b := base_rows t du ru f in
  if appends t hs then b ++ [half_space_row (last b [])] else b.

Lemma convert_row_5 du ru a b c d e :
  convert_row du ru [a; b; c; d; e] =
  [a; b; match du with D_pct => c / 100 | _ => c end; match ru with R_g => d * 1000 | _ => d end; e].
Proof. destruct du, ru; reflexivity. Qed.

Lemma build_from_2_length rows f : length (build_from_2 rows f) = length rows.
Proof. unfold build_from_2. rewrite map_length, seq_length. reflexivity. Qed.

Lemma build_from_2_nth rows f i : (i < length rows)%nat ->
  nth i (build_from_2 rows f) [] =
  [cell 0 (nth i rows []); cell 1 (nth i rows []);
   nth i (fst (get_xi_rho (map (cell 1) rows) f)) 0;
   nth i (snd (get_xi_rho (map (cell 1) rows) f)) 0;
   nth i (if Reqb (last (map (cell 0) rows) 0) 0
          then map INR (seq 1 (length rows - 1)) ++ [0] else map INR (seq 1 (length rows))) 0].
Proof.
  intros Hi. unfold build_from_2.
  match goal with |- nth i (map ?f _) _ = _ => rewrite (nth_indep _ [] (f 0%nat)) by
    (rewrite map_length, seq_length; auto); rewrite (map_nth f) end.
  rewrite seq_nth by auto. reflexivity.
Qed.

Lemma layers_of_ext rows rows' : length rows = length rows' ->
  (forall i, (i < length rows)%nat -> cell 0 (nth i rows []) = cell 0 (nth i rows' []) /\
                                cell 1 (nth i rows []) = cell 1 (nth i rows' [])) ->
  layers_of rows = layers_of rows'.
Proof.
  intros HL H. apply (list_ext (0, 0)); unfold layers_of; rewrite !map_length; auto.
  intros i Hi.
  assert (HM : forall l, nth i (map (fun r : list R => (cell 0 r, cell 1 r)) l) (0, 0)
                    = (cell 0 (nth i l []), cell 1 (nth i l [])))
    by (intros l; exact (map_nth (fun r : list R => (cell 0 r, cell 1 r)) l [] i)).
  rewrite !HM. destruct (H i Hi) as [-> ->]; reflexivity.
Qed.

Lemma layers_of_build rows f : layers_of (build_from_2 rows f) = layers_of rows.
Proof.
  apply layers_of_ext; [apply build_from_2_length|].
  intros i Hi. rewrite build_from_2_length in Hi. rewrite build_from_2_nth by auto. auto.
Qed.

Lemma convert_row_cells du ru r : cell 0 (convert_row du ru r) = cell 0 r /\
  cell 1 (convert_row du ru r) = cell 1 r /\ cell 4 (convert_row du ru r) = cell 4 r.
Proof.
  unfold convert_row, cell. destruct du, ru; repeat split; rewrite ?set_nth_other by lia; reflexivity.
Qed.

Lemma layers_of_base t du ru f : layers_of (base_rows t du ru f) = layers_of (t_rows t).
Proof.
  unfold base_rows. destruct (Nat.eqb (t_ncol t) 2); [apply layers_of_build|].
  unfold layers_of. rewrite map_map. apply map_ext. intros r.
  destruct (convert_row_cells du ru r) as (-> & -> & _). reflexivity.
Qed.

Lemma base_rows_length t du ru f : length (base_rows t du ru f) = length (t_rows t).
Proof.
  unfold base_rows. destruct (Nat.eqb _ 2); [apply build_from_2_length|apply map_length].
Qed.

Lemma thk_of_layers rows : thk_of (layers_of rows) = map (cell 0) rows.
Proof. unfold thk_of, layers_of. rewrite map_map. reflexivity. Qed.
Lemma vs_of_layers rows : vs_of (layers_of rows) = map (cell 1) rows.
Proof. unfold vs_of, layers_of. rewrite map_map. reflexivity. Qed.
Lemma layers_of_app r1 r2 : layers_of (r1 ++ r2) = layers_of r1 ++ layers_of r2.
Proof. apply map_app. Qed.

Lemma base_rows_5 t du ru f : valid_table t -> Forall (fun r => length r = 5%nat) (base_rows t du ru f).
Proof.
  intros (five & Hc & Hg). unfold base_rows. pose proof (good_rows_wf _ _ Hg) as HL.
  destruct five; rewrite Hc; cbn [Nat.eqb].
  - rewrite Forall_map. eapply Forall_impl; [|exact HL]. intros r Hr.
    unfold convert_row. destruct du, ru; rewrite ?set_nth_length; auto.
  - unfold build_from_2. rewrite Forall_map. apply Forall_forall. reflexivity.
Qed.

Lemma half_space_row_5 a b c d e : half_space_row [a; b; c; d; e] = [0; b; c; d; 0].
Proof. reflexivity. Qed.

Lemma len5 (r : list R) : length r = 5%nat -> exists a b c d e, r = [a; b; c; d; e].
Proof. destruct r as [|a [|b [|c [|d [|e [|]]]]]]; try discriminate. eauto 10. Qed.

Lemma last_In {A} (l : list A) d : l <> [] -> In (last l d) l.
Proof.
  intros H. destruct (exists_last H) as (l' & a & ->). rewrite last_last. apply in_app_iff. cbn; auto.
Qed.

Lemma last_map {A B} (f : A -> B) l d d' : l <> [] -> last (map f l) d' = f (last l d).
Proof.
  intros H. destruct (exists_last H) as (l' & a & ->). rewrite map_app. cbn. rewrite !last_last. reflexivity.
Qed.

Lemma layers_of_final t du ru hs f : valid_table t ->
  layers_of (final_rows t du ru hs f) =
  layers_of (t_rows t) ++ (if appends t hs then [(0, cell 1 (last (t_rows t) []))] else []).
Proof.
  intros Hv. unfold final_rows. destruct (appends t hs); [|rewrite app_nil_r; apply layers_of_base].
  rewrite layers_of_app, layers_of_base. f_equal. cbn [layers_of map].
  pose proof (base_rows_5 t du ru f Hv) as H5. pose proof (layers_of_base t du ru f) as HB.
  assert (Hne : base_rows t du ru f <> []).
  { intros E. apply (f_equal (@length _)) in E. rewrite base_rows_length in E.
    destruct Hv as (five & _ & Hg). apply good_rows_ne in Hg. destruct (t_rows t); [auto|discriminate]. }
  assert (Hne2 : t_rows t <> []) by (destruct Hv as (five & _ & Hg); eapply good_rows_ne; eauto).
  assert (HL : snd (last (layers_of (base_rows t du ru f)) (0,0)) = snd (last (layers_of (t_rows t)) (0,0)))
    by (rewrite HB; reflexivity).
  unfold layers_of in HL. rewrite !(last_map _ _ []) in HL by auto. cbn in HL.
  rewrite Forall_forall in H5. specialize (H5 _ (last_In _ [] Hne)).
  destruct (len5 _ H5) as (a & b & c & d & e & E). rewrite E in *. cbn in *. rewrite HL. reflexivity.
Qed.

Lemma valid_good_profile t : valid_table t -> good_profile (layers_of (t_rows t)).
Proof.
  intros (five & _ & Hg). split.
  - apply good_rows_ne in Hg. destruct (t_rows t); [congruence|discriminate].
  - apply good_rows_cells in Hg. unfold layers_of. rewrite Forall_map. exact Hg.
Qed.

Lemma final_good_profile t du ru hs f : valid_table t -> good_profile (layers_of (final_rows t du ru hs f)).
Proof.
  intros Hv. rewrite layers_of_final by auto. destruct (valid_good_profile t Hv) as [H1 H2]. split.
  - intros E. apply app_eq_nil in E as [E _]. auto.
  - apply Forall_app. split; [exact H2|]. destruct (appends t hs); [|constructor].
    constructor; [|constructor]. cbn. split; [lra|].
    rewrite Forall_forall in H2.
    specialize (H2 (cell 0 (last (t_rows t) []), cell 1 (last (t_rows t) []))). apply H2.
    unfold layers_of. apply in_map_iff. exists (last (t_rows t) []). split; [reflexivity|].
    apply last_In. intros E; rewrite E in H1; apply H1; reflexivity.
Qed.

Definition finite_count (thk : list R) : nat := length (filter (fun x => Rltb 0 x) thk).

Lemma vs_init_spec h loc du ru hs f :
  (loc < length h)%nat -> valid_table (tbl h loc) -> du <> D_bad -> ru <> R_bad ->
  inplace (tbl h loc) du ru && t_int (tbl h loc) = false ->
  let t := tbl h loc in
  let rows := final_rows t du ru hs f in
  exists vs30, calc_Vs30 (layers_of rows) 1 = Ok vs30 /\
    vs_init h loc du ru hs f =
    (caller_after h loc du ru ++ [mktable (Nat.eqb (t_ncol t) 5 && t_int t) 5 rows],
     Ok (mkobj (length h) (if appends t hs then length h else loc) vs30
           (rsum (map (cell 0) rows))
           (if Reqb (last (map (cell 0) rows) 0) 0 then (length rows - 1)%nat else length rows))).
Proof.
  intros Hloc Hv Hdu Hru Hint t rows.
  destruct (calc_VsZ_1 (layers_of rows) 30 (final_good_profile t du ru hs f Hv) ltac:(lra))
    as (v & _ & E30).
  change (calc_VsZ (layers_of rows) 30 1) with (calc_Vs30 (layers_of rows) 1) in E30.
  eexists. split; [exact E30|].
  unfold vs_init. rewrite check_table_complete by exact Hv. fold t.
  fold (inplace t du ru). fold t in Hint. rewrite Hint.
  assert (HC : (if inplace t du ru then set_nth loc (mktable false 5 (map (convert_row du ru) (t_rows t))) h else h)
               = caller_after h loc du ru) by reflexivity.
  rewrite HC.
  assert (HB : (if Nat.eqb (t_ncol t) 2 then (build_from_2 (t_rows t) f, false)
                else (t_rows (tbl (caller_after h loc du ru) loc), t_int t))
               = (base_rows t du ru f, Nat.eqb (t_ncol t) 5 && t_int t)).
  { unfold base_rows, caller_after. destruct Hv as (five & Hc & Hg). fold t in Hc. fold t. rewrite Hc.
    destruct five; cbn [Nat.eqb andb]; [|reflexivity]. f_equal.
    unfold inplace. rewrite Hc. cbn [Nat.eqb andb].
    destruct du, ru; cbn [orb]; try (unfold tbl; rewrite set_nth_same by auto; reflexivity);
      try congruence.
    change (convert_row D_1 R_kg) with (fun r : list R => r). rewrite map_id. reflexivity. }
  rewrite HB. fold (appends t hs). fold (final_rows t du ru hs f). fold rows.
  assert (HLh : length (caller_after h loc du ru) = length h).
  { unfold caller_after. destruct (inplace _ _ _); [apply set_nth_length|reflexivity]. }
  unfold alloc. rewrite HLh, E30.
  destruct du, ru; try congruence; reflexivity.
Qed.

Lemma vs_init_ok_inv h loc du ru hs f h' o : table_wf (tbl h loc) ->
  vs_init h loc du ru hs f = (h', Ok o) ->
  valid_table (tbl h loc) /\ du <> D_bad /\ ru <> R_bad /\
  inplace (tbl h loc) du ru && t_int (tbl h loc) = false.
Proof.
  intros Hw E. unfold vs_init in E.
  destruct (check_Vs_profile_format (as_pyobj (tbl h loc))) as [[]|] eqn:EC; [|discriminate].
  apply check_table in EC; auto. split; [exact EC|].
  fold (inplace (tbl h loc) du ru) in E.
  destruct du; try discriminate; destruct ru; try discriminate;
    (split; [discriminate|]); (split; [discriminate|]);
    destruct (inplace _ _ _ && t_int _) eqn:EI; try discriminate; reflexivity.
Qed.

(** ** Validity of the built table *)
Lemma good_row_convert du ru l r : good_row true l r -> good_row true l (convert_row du ru r).
Proof.
  intros (a & b & tl & -> & H1 & H2 & xi & rho & m & -> & H3 & H4 & H5).
  rewrite convert_row_5. exists a, b. eexists. split; [reflexivity|]. split; [auto|]. split; [auto|].
  do 3 eexists. split; [reflexivity|]. repeat split; auto.
  - destruct du; lra.
  - destruct ru; lra.
Qed.

Lemma get_xi_rho_lengths Vs f : length (fst (get_xi_rho Vs f)) = length Vs /\
  length (snd (get_xi_rho Vs f)) = length Vs.
Proof. destruct f as [|[|[|[|f]]]]; cbn; rewrite !map_length; auto. Qed.

Lemma rho_rule_pos v : 0 < rho_rule v.
Proof. unfold rho_rule. destruct (Rltb v 200), (Rltb v 800); lra. Qed.

(** Damping is positive for the three documented formulas (restated from
    Prop_profile to keep the file order simple). *)
Definition xi_positive (f : nat) : Prop :=
  forall Vs, Forall (fun v => 0 < v) Vs -> Forall (fun x => 0 < x) (fst (get_xi_rho Vs f)).

Lemma Forall_nth_R (P : R -> Prop) l i : Forall P l -> (i < length l)%nat -> P (nth i l 0).
Proof. intros H Hi. rewrite Forall_forall in H. apply H, nth_In, Hi. Qed.

Lemma good_rows_nth five rows : rows <> [] ->
  (forall i, (i < length rows)%nat -> good_row five (Nat.eqb (S i) (length rows)) (nth i rows [])) ->
  good_rows five rows.
Proof.
  intros Hne H. destruct (exists_last Hne) as (init & lst & ->). exists init, lst.
  rewrite app_length in H. cbn [length] in H. split; [reflexivity|]. split.
  - apply Forall_forall. intros r Hr. apply (In_nth _ _ []) in Hr as (i & Hi & <-).
    specialize (H i ltac:(lia)). rewrite app_nth1 in H by auto.
    rewrite (proj2 (Nat.eqb_neq _ _)) in H by lia. exact H.
  - specialize (H (length init) ltac:(lia)). rewrite app_nth2, Nat.sub_diag in H by lia.
    rewrite (proj2 (Nat.eqb_eq _ _)) in H by lia. exact H.
Qed.

Lemma good_rows_nth_inv five rows i : good_rows five rows -> (i < length rows)%nat ->
  good_row five (Nat.eqb (S i) (length rows)) (nth i rows []).
Proof.
  intros (init & lst & -> & H1 & H2) Hi. rewrite app_length in *. cbn [length] in *.
  destruct (Nat.eqb_spec (S i) (length init + 1)).
  - replace i with (length init) by lia. rewrite app_nth2, Nat.sub_diag by lia. exact H2.
  - rewrite app_nth1 by lia. rewrite Forall_forall in H1. apply H1, nth_In. lia.
Qed.

Lemma nth_map_INR_seq n i : (i < n)%nat -> nth i (map INR (seq 1 n)) 0 = IZR (Z.of_nat (S i)).
Proof.
  intros Hi. rewrite (nth_indep _ 0 (INR 0)) by (rewrite map_length, seq_length; auto).
  rewrite map_nth, seq_nth by auto. rewrite INR_IZR_INZ. reflexivity.
Qed.

Lemma build_from_2_good rows f : xi_positive f -> good_rows false rows -> good_rows true (build_from_2 rows f).
Proof.
  intros Hxi Hg. pose proof (good_rows_ne _ _ Hg) as Hne.
  assert (Hn0 : (0 < length rows)%nat) by (destruct rows; [congruence|cbn; lia]).
  apply good_rows_nth.
  { intros E. apply (f_equal (@length _)) in E. rewrite build_from_2_length in E. cbn in E; lia. }
  rewrite build_from_2_length. intros i Hi. rewrite build_from_2_nth by auto.
  pose proof (good_rows_nth_inv _ _ i Hg Hi) as (a & b & tl & E & H1 & H2 & _).
  rewrite E. unfold cell; cbn [nth].
  assert (HV : Forall (fun v => 0 < v) (map (cell 1) rows)).
  { rewrite Forall_map. pose proof (good_rows_cells _ _ Hg) as HC.
    eapply Forall_impl; [|exact HC]. cbn; tauto. }
  destruct (get_xi_rho_lengths (map (cell 1) rows) f) as [L1 L2]. rewrite map_length in L1, L2.
  eexists _, _, _. split; [reflexivity|]. split; [exact H1|]. split; [exact H2|].
  assert (HM : exists m, nth i (if Reqb (last (map (cell 0) rows) 0) 0
        then map INR (seq 1 (length rows - 1)) ++ [0] else map INR (seq 1 (length rows))) 0 = IZR m /\
     (if Nat.eqb (S i) (length rows) then (0 <= m)%Z else (0 < m)%Z)).
  { destruct (Reqb (last (map (cell 0) rows) 0) 0).
    - destruct (Nat.eqb_spec (S i) (length rows)).
      + exists 0%Z. split; [|lia]. rewrite app_nth2; rewrite map_length, seq_length; [|lia].
        replace (i - (length rows - 1))%nat with 0%nat by lia. reflexivity.
      + exists (Z.of_nat (S i)). split; [|lia].
        rewrite app_nth1 by (rewrite map_length, seq_length; lia). apply nth_map_INR_seq; lia.
    - exists (Z.of_nat (S i)). split; [apply nth_map_INR_seq; auto|].
      destruct (Nat.eqb (S i) (length rows)); lia. }
  destruct HM as (m & EM & HM). unfold cell in EM. rewrite EM.
  eexists _, _, m. split; [reflexivity|]. split; [|split; [|exact HM]].
  - apply (Forall_nth_R (fun x => 0 < x)); [apply Hxi, HV|]. unfold cell in L1. lia.
  - apply (Forall_nth_R (fun x => 0 < x)); [|unfold cell in L2; lia].
    assert (ES : snd (get_xi_rho (map (cell 1) rows) f) = map rho_rule (map (cell 1) rows))
      by (destruct f as [|[|[|[|]]]]; reflexivity).
    change (map (fun r : list R => nth 1 r 0) rows) with (map (cell 1) rows).
    rewrite ES. rewrite !Forall_map. apply Forall_forall. intros; apply rho_rule_pos.
Qed.

(** The material number of the last row would become an interior one. *)
Definition zero_last_material (t : table) : Prop :=
  t_ncol t = 5%nat /\ cell 4 (last (t_rows t) []) = 0.

Lemma base_rows_good t du ru f : xi_positive f -> valid_table t -> good_rows true (base_rows t du ru f).
Proof.
  intros Hxi (five & Hc & Hg). unfold base_rows. rewrite Hc. destruct five; cbn [Nat.eqb].
  - destruct Hg as (init & lst & -> & H1 & H2). rewrite map_app. eexists _, _. split; [reflexivity|]. split.
    + rewrite Forall_map. eapply Forall_impl; [|exact H1]. intros; apply good_row_convert; auto.
    + apply good_row_convert; auto.
  - apply build_from_2_good; auto.
Qed.

Lemma final_rows_good t du ru hs f : xi_positive f -> valid_table t ->
  (appends t hs = true -> ~ zero_last_material t) ->
  good_rows true (final_rows t du ru hs f).
Proof.
  intros Hxi Hv Hz. pose proof (base_rows_good t du ru f Hxi Hv) as Hb. unfold final_rows.
  destruct (appends t hs) eqn:EA; [|exact Hb]. specialize (Hz eq_refl).
  pose proof (layers_of_base t du ru f) as HLB.
  assert (Hm : cell 4 (last (base_rows t du ru f) []) <> 0).
  { destruct Hv as (five & Hc & Hg). unfold base_rows in *. rewrite Hc in *. destruct five; cbn [Nat.eqb] in *.
    - intros E. apply Hz. split; [exact Hc|]. rewrite (last_map _ _ []) in E by (eapply good_rows_ne; eauto).
      destruct (convert_row_cells du ru (last (t_rows t) [])) as (_ & _ & E4). rewrite E4 in E. exact E.
    - set (n := length (t_rows t)).
      assert (Hn : (0 < n)%nat) by (apply good_rows_ne in Hg; subst n; destruct (t_rows t); [congruence|cbn; lia]).
      assert (EL : last (build_from_2 (t_rows t) f) [] = nth (n - 1) (build_from_2 (t_rows t) f) []).
      { destruct (exists_last (good_rows_ne _ _ Hb)) as (l & a & E).
        pose proof (build_from_2_length (t_rows t) f) as HL. fold n in HL. rewrite E in *.
        rewrite app_length in HL. cbn in HL. rewrite last_last, app_nth2 by lia.
        replace (n - 1 - length l)%nat with 0%nat by lia. reflexivity. }
      rewrite EL, build_from_2_nth by (subst n; lia).
      unfold appends in EA. apply andb_true_iff in EA as [_ EA]. apply negb_true_iff in EA. rewrite EA.
      unfold cell; cbn [nth]. rewrite nth_map_INR_seq by (subst n; lia).
      apply IZR_neq. lia. }
  assert (H0 : 0 < cell 0 (last (base_rows t du ru f) [])).
  { destruct (exists_last (good_rows_ne _ _ Hb)) as (l & a & E).
    assert (Ht : cell 0 (last (base_rows t du ru f) []) = last (map (cell 0) (t_rows t)) 0).
    { rewrite <- !thk_of_layers, <- HLB, thk_of_layers.
      rewrite (last_map _ _ []); [reflexivity|eapply good_rows_ne; eauto]. }
    rewrite Ht. unfold appends in EA. apply andb_true_iff in EA as [_ EA]. apply negb_true_iff in EA.
    apply Reqb_false in EA.
    assert (0 <= last (map (cell 0) (t_rows t)) 0); [|lra].
    rewrite <- Ht. destruct Hb as (i & l0 & E0 & _ & Hl). rewrite E0, last_last. eapply good_row_cells; eauto. }
  destruct Hb as (init & lst & E & H1 & H2). rewrite E in *. rewrite last_last in *.
  destruct H2 as (a & b & tl & -> & Ha & Hbb & xi & rho & m & -> & Hx & Hr & Hmm).
  cbn in Hm, H0. exists (init ++ [[a; b; xi; rho; IZR m]]), [0; b; xi; rho; 0].
  split; [rewrite half_space_row_5; reflexivity|]. split.
  - apply Forall_app. split; [exact H1|]. constructor; [|constructor].
    exists a, b, [xi; rho; IZR m]. repeat split; auto. exists xi, rho, m. repeat split; auto.
    assert (m <> 0%Z) by (intros ->; apply Hm; reflexivity). lia.
  - exists 0, b, [xi; rho; 0]. repeat split; auto; try lra. exists xi, rho, 0%Z. repeat split; auto. lia.
Qed.

(** ** Truncation *)

(** An object as it is just after construction: its table is valid and the
    array behind [_thk] still agrees with it. *)
Definition coherent (h : heap) (o : vsobj) : Prop :=
  (o_tbl o < length h)%nat /\ t_ncol (tbl h (o_tbl o)) = 5%nat /\
  good_rows true (o_rows h o) /\ o_thks h o = map (cell 0) (o_rows h o).

Lemma trunc_scan_spec thk : forall d total j0, total < d ->
  match trunc_scan thk d total j0 with
  | inl (j, x) => exists k, j = (j0 + k)%nat /\ (k < length thk)%nat /\
      x = d - (total + top thk k) /\ total + top thk k < d /\ d <= total + top thk (S k)
  | inr tot => tot = total + rsum thk /\ tot < d
  end.
Proof.
  induction thk as [|t thk IH]; intros d total j0 H; cbn [trunc_scan].
  - cbn. lra.
  - destruct (Rleb_spec d (total + t)) as [Hle|Hgt].
    + exists 0%nat. unfold top; cbn. repeat split; try lia; try lra.
    + apply Rnot_le_lt in Hgt. specialize (IH d (total + t) (S j0) Hgt).
      destruct (trunc_scan thk d (total + t) (S j0)) as [[j x]|tot].
      * destruct IH as (k & -> & Hk & -> & H1 & H2). exists (S k).
        unfold top in *; cbn [firstn rsum length] in *. repeat split; try lia; try lra.
      * cbn [rsum]. lra.
Qed.

(** The layer holding the truncation depth. *)
Definition cut_layer (thk : list R) (d : R) (j : nat) : Prop :=
  (j < length thk)%nat /\ top thk j < d /\ (d <= top thk (S j) \/ S j = length thk).

Lemma truncate_scan thk d : thk <> [] -> Forall (fun t => 0 <= t) thk -> 0 < d ->
  exists j, cut_layer thk d j /\
    match trunc_scan thk d 0 0 with
    | inl (j', x) => j' = j /\ x = d - top thk j
    | inr tot => S j = length thk /\ tot = rsum thk
    end.
Proof.
  intros Hne HF Hd. pose proof (trunc_scan_spec thk d 0 0 Hd) as HS.
  destruct (trunc_scan thk d 0 0) as [[j x]|tot].
  - destruct HS as (k & -> & Hk & -> & H1 & H2). exists k. unfold cut_layer. repeat split; auto; lra.
  - destruct HS as [-> H]. exists (length thk - 1)%nat.
    assert (0 < length thk)%nat by (destruct thk; [congruence|cbn; lia]).
    split; [|split; [lia|lra]]. split; [lia|]. split; [|right; lia].
    pose proof (top_mono thk HF (length thk - 1) (length thk) ltac:(lia)) as HM.
    rewrite top_all in HM. lra.
Qed.

Lemma top_last thk : thk <> [] -> rsum thk = top thk (length thk - 1) + last thk 0.
Proof.
  intros H. destruct (exists_last H) as (l & a & ->). rewrite last_last, app_length. cbn [length].
  replace (length l + 1 - 1)%nat with (length l) by lia.
  unfold top. rewrite firstn_app, Nat.sub_diag, firstn_all. cbn. rewrite app_nil_r, rsum_app. cbn. lra.
Qed.

Lemma firstn_S_set_nth {A} j (x : A) l : (j < length l)%nat ->
  firstn (S j) (set_nth j x l) = firstn j l ++ [x].
Proof.
  revert j; induction l as [|y l IH]; intros [|j] H; cbn in H; try lia; [reflexivity|].
  cbn [set_nth]. change (firstn (S (S j)) (y :: set_nth j x l)) with (y :: firstn (S j) (set_nth j x l)).
  rewrite IH by lia. reflexivity.
Qed.

Lemma rmax_from_int l : forall m, (exists z, m = IZR z /\ (0 <= z)%Z) ->
  Forall (fun x => exists z, x = IZR z /\ (0 <= z)%Z) l ->
  exists z, rmax_from m l = IZR z /\ (0 <= z)%Z.
Proof.
  induction l as [|x l IH]; intros m Hm HF; cbn; [exact Hm|].
  inversion HF; subst. apply IH; auto. unfold Rmax. destruct (Rle_dec m x); auto.
Qed.

Lemma fix_material_spec A r b : 
  (exists z, cell 4 r = IZR z /\ (0 <= z)%Z) ->
  (exists z, cell 4 b = IZR z /\ (0 <= z)%Z) ->
  Forall (fun r => exists z, cell 4 r = IZR z /\ (0 <= z)%Z) A ->
  length r = 5%nat ->
  exists (m : Z), (0 < m)%Z /\
    fix_material (A ++ [r; b]) = A ++ [set_nth 4 (IZR m) r; b] /\ (cell 4 r <> 0 -> cell 4 r = IZR m).
Proof.
  intros Hr Hb HA H5. unfold fix_material. rewrite app_length. cbn [length].
  replace (length A + 2 - 2)%nat with (length A) by lia.
  rewrite app_nth2, Nat.sub_diag by lia. cbn [nth].
  destruct (Reqb_spec (cell 4 r) 0) as [E|E].
  - destruct (rmax_from_int (map (cell 4) (A ++ [r; b])) (cell 4 (nth 0 (A ++ [r; b]) []))) as (z & Ez & Hz).
    + destruct A; cbn; [exact Hr|]. inversion HA; auto.
    + rewrite Forall_map. apply Forall_app. split; [exact HA|]. repeat constructor; auto.
    + exists (z + 1)%Z. split; [lia|]. split; [|congruence].
      rewrite Ez. rewrite <- plus_IZR. rewrite set_nth_app. reflexivity.
  - destruct Hr as (z & Ez & Hz). exists z. split.
    + assert (z <> 0%Z) by (intros ->; auto). lia.
    + split; [|auto]. rewrite <- Ez. unfold cell. rewrite set_nth_id. reflexivity.
Qed.

Lemma good_row_mat l r : good_row true l r -> exists z, cell 4 r = IZR z /\ (0 <= z)%Z.
Proof.
  intros (a & b & tl & -> & _ & _ & xi & rho & m & -> & _ & _ & H). exists m. split; [reflexivity|].
  destruct l; lia.
Qed.

Lemma xi3_positive : xi_positive 3.
Proof.
  intros Vs HV. cbn. rewrite Forall_map. eapply Forall_impl; [|exact HV]. cbn. intros v Hv.
  pose proof (xi3_eq v Hv). apply Rdiv_lt_0_compat; lra.
Qed.

Lemma firstn_nth_good rows j : good_rows true rows -> (j < length rows)%nat ->
  Forall (good_row true false) (firstn j rows).
Proof.
  intros (init & lst & -> & H1 & _) Hj. rewrite app_length in Hj. cbn in Hj.
  rewrite firstn_app. replace (j - length init)%nat with 0%nat by lia. cbn. rewrite app_nil_r.
  apply Forall_forall. intros r Hr. rewrite Forall_forall in H1. apply H1.
  rewrite <- (firstn_skipn j init). apply in_app_iff. auto.
Qed.

Lemma vs_init_SI h rows : good_rows true rows ->
  let h1 := h ++ [mktable false 5 rows] in
  exists vs30, calc_Vs30 (layers_of rows) 1 = Ok vs30 /\
  vs_init h1 (length h) D_1 R_kg false 3 =
  (h1 ++ [mktable false 5 rows],
   Ok (mkobj (S (length h)) (length h) vs30 (rsum (map (cell 0) rows))
         (if Reqb (last (map (cell 0) rows) 0) 0 then (length rows - 1)%nat else length rows))).
Proof.
  intros Hg h1.
  assert (Et : tbl h1 (length h) = mktable false 5 rows) by apply tbl_alloc_new.
  assert (Hl : length h1 = S (length h)) by (subst h1; rewrite app_length; cbn; lia).
  assert (Hv : valid_table (tbl h1 (length h))) by (rewrite Et; exists true; split; [reflexivity|exact Hg]).
  destruct (vs_init_spec h1 (length h) D_1 R_kg false 3) as (vs30 & E30 & E); try discriminate; auto.
  { lia. }
  { rewrite Et. reflexivity. }
  assert (EF : final_rows (tbl h1 (length h)) D_1 R_kg false 3 = rows).
  { rewrite Et. unfold final_rows, appends, base_rows. cbn [andb t_ncol t_rows Nat.eqb].
    change (convert_row D_1 R_kg) with (fun r : list R => r). apply map_id. }
  rewrite EF in *. rewrite Et in *. exists vs30. split; [exact E30|]. rewrite E.
  unfold caller_after. rewrite Et. cbn [inplace t_ncol Nat.eqb andb orb t_int appends].
  rewrite Hl. reflexivity.
Qed.

Lemma truncate_gen h o d V : coherent h o -> 0 < d -> 0 < V ->
  let rows := o_rows h o in
  let thk := map (cell 0) rows in
  exists j, cut_layer thk d j /\
  let y := store (t_int (tbl h (o_tbl o))) (d - top thk j) in
  (y = 0 -> exists h' e, truncate h o (Some d) (Some V) = (h', Err e) /\
    o_rows h' o = set_nth j (set_nth 0 y (nth j rows [])) rows) /\
  (0 < y -> exists h' o' m,
    truncate h o (Some d) (Some V) = (h', Ok o') /\ (0 < m)%Z /\
    o_rows h' o' = firstn j rows ++ [set_nth 4 (IZR m) (set_nth 0 y (nth j rows []));
                                     [0; V; 1 / (2 * Qs_formula_3 V); rho_rule V; 0]] /\
    (cell 4 (nth j rows []) <> 0 -> cell 4 (nth j rows []) = IZR m) /\
    o_zmax o' = top thk j + y /\ o_nlayer o' = S j /\ coherent h' o' /\
    o_rows h' o = set_nth j (set_nth 0 y (nth j rows [])) rows /\
    (forall l, l <> o_tbl o -> (l < length h)%nat -> tbl h' l = tbl h l) /\
    o_tbl o' <> o_tbl o /\ t_int (tbl h' (o_tbl o)) = t_int (tbl h (o_tbl o))).
Proof.
  intros (Hl & Hc & Hg & Ht) Hd HV rows thk.
  fold rows in Ht, Hg. fold thk in Ht.
  assert (Hne : thk <> []) by (subst thk; apply good_rows_ne in Hg; destruct rows; [congruence|discriminate]).
  assert (HF : Forall (fun t => 0 <= t) thk).
  { subst thk. rewrite Forall_map. eapply Forall_impl; [|eapply good_rows_cells; eauto]. cbn; tauto. }
  destruct (truncate_scan thk d Hne HF Hd) as (j & Hcut & HS).
  assert (Hj : (j < length rows)%nat) by (destruct Hcut as [H _]; subst thk; rewrite map_length in H; exact H).
  set (x := d - top thk j).
  assert (Hx : 0 < x) by (subst x; destruct Hcut as (_ & H & _); lra).
  exists j. split; [exact Hcut|]. fold x. intros y.
  set (h1 := write_thk h (o_tbl o) j x).
  assert (Esc : match trunc_scan (o_thks h o) d 0 0 with
     | inl (j0, last_thk) => (write_thk h (o_tbl o) j0 last_thk, j0)
     | inr total => (write_thk h (o_tbl o) (length (o_thks h o) - 1)
            (d + cell 0 (nth (length (o_thks h o) - 1) (o_rows h o) []) - total), (length (o_thks h o) - 1)%nat)
     end = (h1, j)).
  { rewrite Ht. destruct (trunc_scan thk d 0 0) as [[j' x']|tot].
    - destruct HS as [-> ->]. reflexivity.
    - destruct HS as [Hj2 ->]. replace (length thk - 1)%nat with j by lia. subst h1. f_equal. f_equal.
      rewrite (top_last thk Hne). replace (length thk - 1)%nat with j by lia.
      assert (EL : last thk 0 = cell 0 (nth j rows [])).
      { destruct (exists_last Hne) as (l & a & E). rewrite E, last_last.
        assert (HLj : j = length l) by (rewrite E in Hj2; rewrite app_length in Hj2; cbn in Hj2; lia).
        assert (nth j thk 0 = a) by (rewrite E, HLj, app_nth2, Nat.sub_diag by lia; reflexivity).
        rewrite <- H. subst thk. exact (map_nth (cell 0) rows [] j). }
      rewrite EL. fold rows. subst x. lra. }
  assert (Etab : tbl h1 (o_tbl o) = mktable (t_int (tbl h (o_tbl o))) 5 (set_nth j (set_nth 0 y (nth j rows [])) rows)).
  { subst h1. unfold write_thk. unfold tbl at 1. rewrite set_nth_same by auto. rewrite Hc. reflexivity. }
  assert (Eoth : forall l, l <> o_tbl o -> tbl h1 l = tbl h l).
  { intros l Hne'. subst h1. unfold write_thk, tbl. rewrite set_nth_other by auto. reflexivity. }
  assert (Hlen1 : length h1 = length h) by (subst h1; unfold write_thk; apply set_nth_length).
  pose proof (good_rows_nth_inv _ _ j Hg Hj) as Hrj.
  assert (H5 : length (nth j rows []) = 5%nat).
  { pose proof (good_rows_wf _ _ Hg) as HW. rewrite Forall_forall in HW. apply HW, nth_In, Hj. }
  set (rj := nth j rows []) in *.
  set (bed := [0; V; 1 / (2 * Qs_formula_3 V); rho_rule V; 0]).
  destruct (fix_material_spec (firstn j rows) (set_nth 0 y rj) bed) as (m & Hm & EFM & Hmm).
  { replace (cell 4 (set_nth 0 y rj)) with (cell 4 rj) by (unfold cell; rewrite set_nth_other by lia; auto).
    eapply good_row_mat; eauto. }
  { exists 0%Z. split; [reflexivity|lia]. }
  { eapply Forall_impl; [|apply firstn_nth_good; eauto]. intros; eapply good_row_mat; eauto. }
  { rewrite set_nth_length; auto. }
  assert (E4 : cell 4 (set_nth 0 y rj) = cell 4 rj) by (unfold cell; rewrite set_nth_other by lia; auto).
  rewrite E4 in Hmm.
  assert (Enew0 : forall bd, firstn (S j) (o_rows h1 o) ++ [bd] = firstn j rows ++ [set_nth 0 y rj; bd]).
  { intros bd. unfold o_rows. rewrite Etab. cbn [t_rows]. rewrite firstn_S_set_nth by auto.
    rewrite <- app_assoc. reflexivity. }
  split; [intros Hy0|intros Hy].
  { exists (h1 ++ [mktable false 5 (firstn j rows ++ [set_nth 4 (IZR m) (set_nth 0 y rj); bed])]).
    set (new := firstn j rows ++ [set_nth 4 (IZR m) (set_nth 0 y rj); bed]) in *.
    destruct (check_Vs_profile_format (as_pyobj (mktable false 5 new))) as [[]|e] eqn:EC.
    { exfalso.
      apply check_table in EC.
      - destruct EC as (five & Hf & init & lst & El & HI & _). cbn [t_rows] in El.
        assert (Einit : init = firstn j rows ++ [set_nth 4 (IZR m) (set_nth 0 y rj)]).
        { subst new. change [set_nth 4 (IZR m) (set_nth 0 y rj); bed]
            with ([set_nth 4 (IZR m) (set_nth 0 y rj)] ++ [bed]) in El.
          rewrite app_assoc in El. apply app_inj_tail in El. symmetry. tauto. }
        rewrite Einit in HI. apply Forall_app in HI. destruct HI as [_ HI]. apply Forall_inv in HI.
        destruct HI as (a & b & tl & Er & Ha & _).
        assert (Ea : a = y).
        { change a with (cell 0 (a :: b :: tl)). rewrite <- Er.
          unfold cell. rewrite set_nth_other by lia. apply set_nth_same. lia. }
        lra.
      - unfold table_wf. cbn [t_rows t_ncol]. apply Forall_app. split.
        + pose proof (good_rows_wf _ _ Hg) as HW. apply Forall_forall. intros r Hr. rewrite Forall_forall in HW.
          apply HW. rewrite <- (firstn_skipn j rows). apply in_app_iff. auto.
        + constructor; [rewrite !set_nth_length; exact H5|]. repeat constructor. }
    exists e. split.
    - unfold truncate. rewrite (proj2 (Rleb_false d 0)) by auto. rewrite (proj2 (Rleb_false V 0)) by auto.
      cbv zeta. rewrite Esc.
      change ([0; V; nth 0 (fst (get_xi_rho [V] 3)) 0; nth 0 (snd (get_xi_rho [V] 3)) 0; 0]) with bed.
      rewrite Enew0, EFM. unfold alloc, vs_init. rewrite tbl_alloc_new, EC. reflexivity.
    - unfold o_rows. rewrite tbl_alloc_old by lia. rewrite Etab. reflexivity. }
  set (new := firstn j rows ++ [set_nth 4 (IZR m) (set_nth 0 y rj); bed]) in *.
  assert (Hgn : good_rows true new).
  { exists (firstn j rows ++ [set_nth 4 (IZR m) (set_nth 0 y rj)]), bed.
    split; [subst new; rewrite <- app_assoc; reflexivity|]. split.
    - apply Forall_app. split; [apply firstn_nth_good; auto|]. constructor; [|constructor].
      destruct Hrj as (a & b & tl & -> & _ & Hb & xi & rho & m0 & -> & Hxi & Hrho & _).
      cbn. exists y, b, [xi; rho; IZR m]. repeat split; auto. exists xi, rho, m. auto.
    - exists 0, V, [1 / (2 * Qs_formula_3 V); rho_rule V; 0]. repeat split; auto; try lra.
      exists (1 / (2 * Qs_formula_3 V)), (rho_rule V), 0%Z. repeat split; auto; try lia.
      + pose proof (xi3_eq V HV). apply Rdiv_lt_0_compat; lra.
      + apply rho_rule_pos. }
  destruct (vs_init_SI h1 new Hgn) as (vs30 & _ & EV).
  set (o' := mkobj (S (length h1)) (length h1) vs30 (rsum (map (cell 0) new))
         (if Reqb (last (map (cell 0) new) 0) 0 then (length new - 1)%nat else length new)) in *.
  set (h' := (h1 ++ [mktable false 5 new]) ++ [mktable false 5 new]) in *.
  assert (Erows' : o_rows h' o' = new).
  { unfold o_rows, h', o'; cbn [o_tbl].
    replace (S (length h1)) with (length (h1 ++ [mktable false 5 new])) by (rewrite app_length; cbn; lia).
    rewrite tbl_alloc_new. reflexivity. }
  assert (Elast : last (map (cell 0) new) 0 = 0).
  { rewrite (last_map _ _ []) by (eapply good_rows_ne; eauto).
    subst new. replace (firstn j rows ++ [set_nth 4 (IZR m) (set_nth 0 y rj); bed])
      with ((firstn j rows ++ [set_nth 4 (IZR m) (set_nth 0 y rj)]) ++ [bed]) by (rewrite <- app_assoc; auto).
    rewrite last_last. reflexivity. }
  exists h', o', m. split.
  { unfold truncate. rewrite (proj2 (Rleb_false d 0)) by auto. rewrite (proj2 (Rleb_false V 0)) by auto.
    cbv zeta. rewrite Esc.
    assert (Enew : fix_material (firstn (S j) (o_rows h1 o) ++
       [[0; V; nth 0 (fst (get_xi_rho [V] 3)) 0; nth 0 (snd (get_xi_rho [V] 3)) 0; 0]]) = new).
    { unfold o_rows. rewrite Etab. cbn [t_rows]. rewrite firstn_S_set_nth by auto.
      rewrite <- app_assoc. exact EFM. }
    rewrite Enew. unfold alloc. exact EV. }
  split; [exact Hm|]. split; [exact Erows'|]. split; [exact Hmm|]. split.
  { subst o'; cbn [o_zmax]. subst new. rewrite map_app, rsum_app. cbn [map rsum].
    assert (E0 : cell 0 (set_nth 4 (IZR m) (set_nth 0 y rj)) = y).
    { unfold cell. rewrite set_nth_other by lia. apply set_nth_same. lia. }
    rewrite E0. unfold bed, cell at 2; cbn [nth].
    rewrite <- firstn_map. fold thk. fold (top thk j). lra. }
  split.
  { subst o'; cbn [o_nlayer]. rewrite Elast, (proj2 (Reqb_true 0 0) eq_refl).
    subst new. rewrite app_length, firstn_length. cbn. lia. }
  split.
  { assert (Hlh : length h' = S (S (length h1))) by (unfold h'; rewrite !app_length; cbn; lia).
    split; [subst o'; cbn; lia|]. split; [|split].
    - unfold h', o'; cbn [o_tbl].
      replace (S (length h1)) with (length (h1 ++ [mktable false 5 new])) by (rewrite app_length; cbn; lia).
      rewrite tbl_alloc_new. reflexivity.
    - rewrite Erows'. exact Hgn.
    - rewrite Erows'. unfold o_thks, h', o'; cbn [o_thk].
      rewrite tbl_alloc_old by (rewrite app_length; cbn; lia). rewrite tbl_alloc_new. reflexivity. }
  split.
  { unfold o_rows, h'. rewrite !tbl_alloc_old by (rewrite ?app_length; cbn; lia). rewrite Etab. reflexivity. }
  split.
  { intros l Hl1 Hl2. unfold h'. rewrite !tbl_alloc_old by (rewrite ?app_length; cbn; lia). auto. }
  split; [subst o'; cbn; lia|].
  unfold h'. rewrite !tbl_alloc_old by (rewrite ?app_length; cbn; lia). rewrite Etab. reflexivity.
Qed.

Lemma truncate_spec h o d V : coherent h o -> t_int (tbl h (o_tbl o)) = false -> 0 < d -> 0 < V ->
  let rows := o_rows h o in
  let thk := map (cell 0) rows in
  exists j h' o' m,
    cut_layer thk d j /\ truncate h o (Some d) (Some V) = (h', Ok o') /\ (0 < m)%Z /\
    o_rows h' o' = firstn j rows ++ [set_nth 4 (IZR m) (set_nth 0 (d - top thk j) (nth j rows []));
                                     [0; V; 1 / (2 * Qs_formula_3 V); rho_rule V; 0]] /\
    (cell 4 (nth j rows []) <> 0 -> cell 4 (nth j rows []) = IZR m) /\
    o_zmax o' = d /\ o_nlayer o' = S j /\ coherent h' o' /\
    o_rows h' o = set_nth j (set_nth 0 (d - top thk j) (nth j rows [])) rows /\
    (forall l, l <> o_tbl o -> (l < length h)%nat -> tbl h' l = tbl h l) /\
    o_tbl o' <> o_tbl o /\ t_int (tbl h' (o_tbl o)) = false.
Proof.
  intros Hco Hint Hd HV rows thk.
  destruct (truncate_gen h o d V Hco Hd HV) as (j & Hcut & _ & H). fold rows in H, Hcut. fold thk in H, Hcut.
  rewrite Hint in H. cbn [store] in H.
  destruct H as (h' & o' & m & H1 & H2 & H3 & H4 & H5 & H6 & H7 & H8 & H9 & H10 & H11).
  { destruct Hcut as (_ & H & _). lra. }
  exists j, h', o', m. split; [exact Hcut|]. split; [exact H1|]. split; [exact H2|]. split; [exact H3|].
  split; [exact H4|]. split; [rewrite H5; lra|]. auto 8.
Qed.
