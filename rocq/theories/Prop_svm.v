(** C53: the sediment velocity model (class_svm.py): smooth and discretised profiles. *)
From Coq Require Import Reals List Bool ZArith Lia Lra.
From Verif Require Import Base M_generic P_generic M_profile P_profile Prop_profile M_vs_profile P_vs_profile Prop_vs_profile Prop_vs_query M_svm P_svm P_svm2.
Import ListNotations.
Open Scope R_scope.

(** The velocity of the analytical profile exceeds [c] at some sampled depth above z1. *)
Definition exceeds (v z1 c : R) : Prop := exists i : nat, INR i / 10 < z1 - 12 / 5 /\ c < analytic v (INR i / 10).

Lemma exceeds_in v z1 c : 5 / 2 < z1 -> (exceeds v z1 c <-> exists y, In y (svm_analyt v z1) /\ c < y).
Proof.
  intros Hz. split.
  - intros (i & Hi & Hc). apply svm_grid_iff in Hi; auto. exists (analytic v (INR i / 10)). split; [|auto].
    rewrite <- svm_analyt_nth with (z1 := z1) by auto. apply nth_In. rewrite svm_analyt_length. auto.
  - intros (y & Hy & Hc). apply (In_nth _ _ 0) in Hy as (i & Hi & <-). rewrite svm_analyt_length in Hi.
    rewrite svm_analyt_nth in Hc by auto. exists i. split; [apply svm_grid_iff; auto|auto].
Qed.

(** Layers of the smooth profile: a top layer of 2.4 m, layers of 0.1 m, a half space. *)
Definition smooth_layering (z1 : R) (thk : list R) : Prop :=
  exists m, thk = 12 / 5 :: repeat (1 / 10) m ++ [0] /\ (1 <= m)%nat /\ z1 - 1 / 10 <= rsum thk < z1.

Lemma rsum_repeat' x n : rsum (repeat x n) = INR n * x.
Proof. induction n; cbn [repeat rsum]; [cbn; lra|]. rewrite IHn, S_INR. lra. Qed.

Lemma smooth_layers z1 : 5 / 2 < z1 -> smooth_layering z1 (12 / 5 :: repeat (1 / 10) (svm_count z1 - 1) ++ [0]).
Proof.
  intros Hz. destruct (svm_count_spec z1 Hz) as [Hn [H1 H2]]. exists (svm_count z1 - 1)%nat.
  split; [reflexivity|]. split; [lia|]. cbn [rsum]. rewrite rsum_app, rsum_repeat'. cbn [rsum].
  rewrite minus_INR in * by lia. change (INR 1) with 1 in *. lra.
Qed.

Lemma svm_top_eq : svm_top = 12 / 5.
Proof. unfold svm_top, svm_thk. lra. Qed.

Lemma map_layers p : layers_of (map (fun l : layer => [fst l; snd l]) p) = p.
Proof. induction p as [|[a b] p IH]; cbn; [reflexivity|]. f_equal. exact IH. Qed.

Lemma table_of_combine thk vs : table_of_layers (combine thk vs) = mktable false 2 (table2 thk vs).
Proof. reflexivity. Qed.

(** The constructor on a profile that the format check accepts. *)
Lemma svm_build h thk vs target z1 cap : length thk = length vs -> thk <> [] -> interior_pos thk -> last thk 0 = 0 ->
  Forall (fun v => 0 < v) vs ->
  exists h' o, vs_init (h ++ [table_of_layers (combine thk vs)]) (length h) D_1 R_kg false 3 = (h', Ok o) /\
    (forall l, (l < length h)%nat -> tbl h' l = tbl h l) /\
    let s := mksvm target z1 (length h) o (bedrock_attr z1 cap) in
    svm_ok h' s /\ base_layers h' s = combine thk vs.
Proof.
  intros HL Hne Hi H0 HV. rewrite table_of_combine.
  destruct (build_profile h thk vs false) as (h' & o & E & Hco & Hzm & Hlay & Hold); auto; [lra|].
  exists h', o. split; [exact E|]. split; [exact Hold|].
  set (s := mksvm target z1 (length h) o (bedrock_attr z1 cap)). cbv zeta.
  destruct Hlay as [Hlay|(Hf & _)]; [|discriminate].
  assert (Hl : (length h < length (h ++ [mktable false 2 (table2 thk vs)]))%nat) by (rewrite app_length; cbn; lia).
  assert (Hw : table_wf (tbl (h ++ [mktable false 2 (table2 thk vs)]) (length h))).
  { rewrite tbl_alloc_new. apply (good_rows_wf false). apply table2_good; auto. lra. }
  destruct (vs_init_grows _ _ _ _ _ _ _ _ E) as [HG HT].
  assert (HB : base_layers h' s = combine thk vs).
  { unfold base_layers, s. cbn [s_arr].
    destruct (C09_caller_array _ _ _ _ _ _ _ _ Hl Hw E) as [[_ HC] _].
    rewrite HC by (rewrite tbl_alloc_new; auto). rewrite tbl_alloc_new. cbn [t_rows]. apply layers_of_table2. }
  split; [|exact HB]. unfold svm_ok. rewrite HB. cbn [s_obj s_arr s].
  split; [exact Hco|]. split; [exact Hlay|]. split; [rewrite Hzm, combine_thk by auto; reflexivity|].
  split; [rewrite HG, app_length; cbn; lia|].
  destruct Hco as (Hc1 & _ & Hg & Hthk).
  destruct (Nat.lt_ge_cases (o_thk o) (length h')) as [|Hge]; [auto|]. exfalso.
  unfold o_thks, tbl in Hthk. rewrite (nth_overflow h') in Hthk by auto. cbn in Hthk.
  apply good_rows_ne in Hg. destruct (o_rows h' o); [congruence|discriminate].
Qed.

(** ** The smooth profile of a deep site *)
Theorem C53_smooth_profile : forall h target z1 cap eta iterate fuel v c,
  0 < eta <= 1 -> 5 / 2 < z1 -> svm_trial iterate fuel target z1 = Some (Ok v) -> 0 < vs0 v ->
  cap_value cap = Some c -> 0 < c ->
  exists h' s, svm_init h target (Some z1) cap eta iterate fuel = Some (h', Ok s) /\
    svm_ok h' s /\ s_Vs30 s = target /\ s_z1 s = z1 /\ s_bedrock s = Some c /\
    smooth_layering z1 (thk_of (base_layers h' s)) /\
    (forall w, In w (vs_of (base_layers h' s)) -> 0 < w) /\
    nth 0 (vs_of (base_layers h' s)) 0 = vs0 v /\
    last (vs_of (base_layers h' s)) 0 = c /\
    (nondecr (vs_of (base_layers h' s)) <-> vs0 v <= c /\ (exceeds v z1 c -> vs0 v <= c * eta)) /\
    ((forall w, In w (vs_of (base_layers h' s)) -> w <= c) <-> vs0 v <= c) /\
    (forall i : nat, INR (S i) / 10 < z1 - 12 / 5 -> analytic v (INR i / 10) <= c * eta \/ ~ exceeds v z1 c ->
       nth (S i) (vs_of (base_layers h' s)) 0 = analytic v (INR i / 10)).
Proof.
  intros h target z1 cap eta iterate fuel v c He Hz Htr Hv0 Hcv Hc.
  destruct (svm_count_spec z1 Hz) as [Hn Hnb].
  destruct (svm_analyt_hd v z1 Hz) as [Hhd Hn0].
  set (l := svm_analyt v z1) in *.
  assert (Hll : length l = svm_count z1) by apply svm_analyt_length.
  assert (Hlne : l <> []) by (destruct l; [cbn in Hll; lia|discriminate]).
  assert (Hlnd : nondecr l) by (apply svm_analyt_nondecr; auto).
  assert (Hlpos : forall y, In y l -> 0 < y).
  { intros y Hy. apply (In_nth _ _ 0) in Hy as (k & Hk & <-). specialize (Hlnd 0%nat k ltac:(lia)). lra. }
  destruct (svm_capped_spec c eta l Hc He Hlne Hlnd Hlpos) as (l' & Ec & Hll' & Hl'nd & Hl'b & Hl'0 & Hl'keep & Hl'all).
  set (thk := 12 / 5 :: repeat (1 / 10) (svm_count z1 - 1) ++ [0]).
  set (vs := vs0 v :: removelast l' ++ [c]).
  assert (Hrl : length (removelast l') = (svm_count z1 - 1)%nat).
  { rewrite <- Hll, <- Hll'. assert (l' <> []) by (destruct l'; [cbn in *; lia|discriminate]).
    rewrite (app_removelast_last 0 H) at 2. rewrite app_length. cbn. lia. }
  assert (HL : length thk = length vs).
  { unfold thk, vs. cbn [length]. rewrite !app_length, repeat_length, Hrl. reflexivity. }
  assert (Hprof : svm_profile iterate fuel target z1 cap eta = Some (Ok (combine thk vs))).
  { unfold svm_profile. rewrite (proj2 (Rleb_false z1 (5 / 2))) by lra. rewrite Htr, Hcv. f_equal.
    unfold svm_deep. rewrite svm_thicknesses by auto. cbn [bind]. fold l. rewrite Hhd. cbn [bind]. rewrite Ec. cbn [bind].
    rewrite removelast_app1, svm_top_eq. reflexivity. }
  assert (Hin : forall x, In x (removelast l') -> In x l').
  { intros x Hx. assert (l' <> []) by (destruct l'; [destruct Hx|discriminate]).
    rewrite (app_removelast_last 0 H). apply in_app_iff; auto. }
  assert (HVpos : Forall (fun w => 0 < w) vs).
  { unfold vs. constructor; [auto|]. apply Forall_app. split; [|constructor; auto].
    apply Forall_forall. intros x Hx. apply Hl'b, Hin, Hx. }
  assert (Hint : interior_pos thk).
  { unfold interior_pos, thk. change (12 / 5 :: repeat (1 / 10) (svm_count z1 - 1) ++ [0]) with ((12 / 5 :: repeat (1 / 10) (svm_count z1 - 1)) ++ [0]).
    rewrite removelast_app1. constructor; [lra|]. apply Forall_forall. intros x Hx. apply repeat_spec in Hx. lra. }
  assert (Hl0 : last thk 0 = 0).
  { unfold thk. change (12 / 5 :: repeat (1 / 10) (svm_count z1 - 1) ++ [0]) with ((12 / 5 :: repeat (1 / 10) (svm_count z1 - 1)) ++ [0]). apply last_last. }
  destruct (svm_build h thk vs target z1 cap HL ltac:(discriminate) Hint Hl0 HVpos) as (h' & o & E & _ & Hok & HB).
  set (s := mksvm target z1 (length h) o (bedrock_attr z1 cap)) in *.
  exists h', s. split.
  { unfold svm_init. rewrite (proj2 (Rleb_false eta 0)) by lra. rewrite (proj2 (Rltb_false 1 eta)) by lra. cbn [orb].
    rewrite Hprof. cbn [alloc]. rewrite E. reflexivity. }
  split; [exact Hok|]. split; [reflexivity|]. split; [reflexivity|]. split.
  { unfold s, bedrock_attr. cbn [s_bedrock]. rewrite (proj2 (Rleb_false z1 (5 / 2))) by lra.
    destruct cap; cbn in Hcv; congruence. }
  rewrite HB, combine_thk, combine_vs by auto.
  split; [apply smooth_layers; auto|].
  split. { intros w Hw. rewrite Forall_forall in HVpos. auto. }
  split; [reflexivity|].
  split. { unfold vs. change (vs0 v :: removelast l' ++ [c]) with ((vs0 v :: removelast l') ++ [c]). apply last_last. }
  assert (Hhead : exists a r, removelast l' = a :: r /\ a = nth 0 l' 0).
  { destruct l' as [|a [|b r]]; cbn in Hrl; try lia. exists a, (removelast (b :: r)). split; reflexivity. }
  assert (Hcap : forall w, In w (removelast l' ++ [c]) -> w <= c).
  { intros w Hw. apply in_app_iff in Hw as [Hw|[<-|[]]]; [|lra]. apply Hl'b, Hin, Hw. }
  split; [|split].
  - unfold vs. rewrite nondecr_cons. split.
    + intros [_ H]. split; [apply H, in_app_iff; right; left; reflexivity|].
      intros Hex. apply exceeds_in in Hex; auto. destruct (Rle_dec (vs0 v) (c * eta)) as [|Hgt]; [auto|].
      assert (E0 : nth 0 l' 0 = c * eta) by (apply Hl'0; [exact Hex|lra]).
      destruct Hhead as (a & r & Er & Ea). specialize (H a). rewrite Er in H. specialize (H ltac:(left; reflexivity)). lra.
    + intros [H1 H2]. split.
      * apply nondecr_app; [apply nondecr_removelast; auto|apply nondecr_one|].
        intros x y Hx [<-|[]]. apply Hl'b, Hin, Hx.
      * assert (H0 : vs0 v <= nth 0 l' 0).
        { destruct (first_above c l) as [j|] eqn:Ef; pose proof (first_above_spec c l) as Hs; rewrite Ef in Hs.
          - assert (Hex : exceeds v z1 c).
            { apply exceeds_in; auto. exists (nth j l 0). split; [apply nth_In|]; apply Hs. }
            specialize (H2 Hex). rewrite (Hl'keep 0%nat) by (try lia; lra). lra.
          - rewrite Hl'all by auto. lra. }
        intros y Hy. apply in_app_iff in Hy as [Hy|[<-|[]]]; [|lra].
        apply Hin in Hy. apply (In_nth _ _ 0) in Hy as (k & Hk & <-). specialize (Hl'nd 0%nat k ltac:(lia)). lra.
  - unfold vs. split.
    + intros H. apply H. left; reflexivity.
    + intros H w [<-|Hw]; [exact H|auto].
  - intros i Hi Hor. apply svm_grid_iff in Hi; auto.
    assert (Hi1 : (i < length (removelast l'))%nat) by lia.
    unfold vs. cbn [nth]. rewrite app_nth1 by auto.
    rewrite (proj1 (removelast_nth l' i 0 ltac:(lia))).
    rewrite <- svm_analyt_nth with (z1 := z1) by lia. fold l.
    destruct Hor as [Hle|Hnex].
    + apply Hl'keep; [lia|]. unfold l. rewrite svm_analyt_nth by lia. exact Hle.
    + rewrite Hl'all; [reflexivity|]. intros y Hy. destruct (Rle_dec y c) as [|Hgt]; [auto|]. exfalso. apply Hnex.
      apply exceeds_in; auto. exists y. split; [exact Hy|lra].
Qed.

(** ** Discretised profiles *)

(** What the theorem above establishes, for a cap [c] and a profile that rises to it. *)
Definition settled (h : heap) (s : svm) (c : R) : Prop :=
  svm_ok h s /\ s_bedrock s = Some c /\ 0 < c /\ 0 < s_z1 s /\
  last (thk_of (base_layers h s)) 0 = 0 /\ 0 < rsum (thk_of (base_layers h s)) <= s_z1 s /\
  nondecr (vs_of (base_layers h s)) /\ (forall v, In v (vs_of (base_layers h s)) -> v <= c).

(** A profile made of layers [ta] read from the smooth profile, cut at z1. *)
Definition discretised (h : heap) (s : svm) (c : R) (ta : list R) (mid : bool) (h' : heap) (o' : vsobj) : Prop :=
  coherent h' o' /\ o_zmax o' = s_z1 s /\ svm_ok h' s /\ base_layers h' s = base_layers h s /\
  exists q x v, layers_of (o_rows h' o') = q ++ [(x, v); (0, c)] /\
    (length q <= length ta)%nat /\ thk_of q = firstn (length q) ta /\
    (forall k, (k < length q)%nat -> reads (base_layers h s) ta mid k (nth k (vs_of q) 0)) /\
    0 < x /\ rsum (thk_of q) + x = s_z1 s /\ (x <= nth (length q) ta 0 \/ rsum ta < s_z1 s /\ x = s_z1 s - rsum ta) /\
    In v (vs_of (base_layers h s)) /\ nondecr (vs_of q ++ [v; c]).

Lemma settled_cut h s c ta mid : settled h s c -> ta <> [] -> interior_pos ta -> 0 <= last ta 0 -> (mid = true -> last ta 0 <> 0) ->
  exists h' o', sample_and_cut h s (ThkArray ta) mid = (h', Ok o') /\ discretised h s c ta mid h' o'.
Proof.
  intros (H1 & H2 & H3 & H4 & _ & _ & H5 & H6) Hne Hi H0 Hm.
  destruct (sample_and_cut_spec h s ta mid c H1 H2 H3 H4 Hne Hi H0 Hm H5 H6) as
    (h' & o' & q & x & v & E & A1 & A2 & A3 & A4 & A5 & A6 & A7 & A8 & A9 & A10 & A11 & A12 & A13).
  exists h', o'. split; [exact E|]. unfold discretised.
  refine (conj A1 (conj A2 (conj A12 (conj A13 _)))). exists q, x, v.
  refine (conj A3 (conj A4 (conj A5 (conj A6 (conj A7 (conj A8 (conj A9 (conj A10 A11)))))))).
Qed.

Lemma scalar_array h s t mid : 0 < t -> 0 < o_zmax (s_obj s) -> exists n, (0 < n)%nat /\ INR (n - 1) * t < o_zmax (s_obj s) <= INR n * t /\
  sample_and_cut h s (ThkScalar t None) mid = sample_and_cut h s (ThkArray (repeat t n)) mid.
Proof.
  intros Ht Hz. pose proof (ceil_spec (o_zmax (s_obj s) / t)) as [Hc1 Hc2].
  set (z := ceil (o_zmax (s_obj s) / t)) in *.
  assert (Hq : 0 < o_zmax (s_obj s) / t) by (apply Rdiv_lt_0_compat; lra).
  assert (Hzp : (0 < z)%Z) by (apply lt_IZR; lra).
  exists (Z.to_nat z). split; [lia|]. split.
  - rewrite minus_INR by lia. change (INR 1) with 1. rewrite INR_IZR_INZ, Z2Nat.id by lia.
    assert (o_zmax (s_obj s) = o_zmax (s_obj s) / t * t) by (field; lra). split.
    + rewrite H at 1. apply Rmult_lt_compat_r; lra.
    + rewrite H at 1. apply Rmult_le_compat_r; lra.
  - unfold sample_and_cut, class_query_given_thk_profile. cbn [class_thk_arg]. unfold infer_n_layers. fold z.
    unfold query_Vs_given_thk. rewrite (proj2 (Z.leb_gt z 0)) by lia. reflexivity.
Qed.

(** ... with layers of one thickness *)
Theorem C53_fixed_thickness : forall h s c t mid, settled h s c -> 0 < t ->
  exists n h' o', svm_discretize h s (Some t) None mid = (h', Ok o') /\
    INR (n - 1) * t < rsum (thk_of (base_layers h s)) <= INR n * t /\
    discretised h s c (repeat t n) mid h' o'.
Proof.
  intros h s c t mid Hs Ht. pose proof Hs as ((_ & _ & Hzm & _) & _ & _ & _ & _ & Htot & _).
  destruct (scalar_array h s t mid Ht ltac:(lra)) as (n & Hn & Hnb & EQ). rewrite Hzm in Hnb.
  destruct (settled_cut h s c (repeat t n) mid Hs) as (h' & o' & E & Hd).
  - destruct n; [lia|discriminate].
  - unfold interior_pos. apply Forall_forall. intros x Hx.
    assert (Hne : repeat t n <> []) by (destruct n; [lia|discriminate]).
    assert (Hin : In x (repeat t n)) by (rewrite (app_removelast_last 0 Hne); apply in_app_iff; auto).
    apply repeat_spec in Hin. lra.
  - assert (Hl : In (last (repeat t n) 0) (repeat t n)) by (apply last_In; destruct n; [lia|discriminate]). apply repeat_spec in Hl. lra.
  - intros _. assert (Hl : In (last (repeat t n) 0) (repeat t n)) by (apply last_In; destruct n; [lia|discriminate]). apply repeat_spec in Hl. lra.
  - exists n, h', o'. split; [|split; [exact Hnb|exact Hd]].
    rewrite <- E, <- EQ. reflexivity.
Qed.

(** ... with one velocity increment per layer.  [closes] says where layers are closed.
    The outcome is an [IndexError] when none is, and a [ValueError] when velocities are
    read at mid-depth and the last two rows of the smooth profile both close one. *)
Theorem C53_velocity_increment : forall h s c inc mid, settled h s c ->
  let p := base_layers h s in
  (Forall (fun v => v <= inc) (vs_of p) -> svm_discretize h s None (Some inc) mid = (h, Err ValueError)) /\
  (Exists (fun v => inc < v) (vs_of p) -> exists idx ta,
     closes inc (nth 0 (vs_of p) 0) (vs_of p) idx /\ length ta = length idx /\
     (forall m, (m < length idx)%nat -> rsum (firstn (S m) ta) = rsum (firstn (S (nth m idx 0%nat)) (thk_of p))) /\
     (idx = [] -> svm_discretize h s None (Some inc) mid = (h, Err IndexError)) /\
     (mid = true -> In (length p - 2)%nat idx -> In (length p - 1)%nat idx ->
        svm_discretize h s None (Some inc) mid = (h, Err ValueError)) /\
     (idx <> [] -> mid = false \/ ~ In (length p - 2)%nat idx \/ ~ In (length p - 1)%nat idx ->
        exists h' o', svm_discretize h s None (Some inc) mid = (h', Ok o') /\ discretised h s c ta mid h' o')).
Proof.
  intros h s c inc mid Hs p. pose proof Hs as ((Hco & HL & _) & _ & _ & _ & Hl0 & Htot & Hnd & _).
  fold p in HL, Hl0, Htot, Hnd.
  assert (Hg : good_rows true (o_rows h (s_obj s))) by apply Hco.
  assert (Hne : p <> []) by (rewrite <- HL; apply good_rows_ne in Hg; destruct (o_rows h (s_obj s)); [congruence|discriminate]).
  assert (Hpi : interior_pos (thk_of p)) by (rewrite <- HL, thk_of_layers; apply good_rows_interior, Hg).
  assert (Hn : (2 <= length p)%nat).
  { destruct p as [|a [|b p']] eqn:Ep; [congruence| |cbn; lia]. cbn in Hl0, Htot. lra. }
  assert (Hv0 : exists v0 l, vs_of p = v0 :: l) by (destruct p as [|[a b] p']; [congruence|cbn; eauto]).
  destruct Hv0 as (v0 & l & Ev). 
  destruct (rmax_from_spec (vs_of p) v0) as (M1 & M2 & M3).
  assert (Hgo : svm_discretize h s None (Some inc) mid =
    if Rleb (rmax_from v0 (vs_of p)) inc then (h, Err ValueError)
    else match dep2thk (0 :: incr_scan inc p v0 0 0) false with
         | Err e => (h, Err e)
         | Ok th => sample_and_cut h s (ThkArray th) mid
         end).
  { unfold svm_discretize. fold p. rewrite Ev at 1. cbn [get nth_error].
    destruct (Rleb (rmax_from v0 (vs_of p)) inc); [reflexivity|]. destruct (dep2thk _ _); reflexivity. }
  split.
  - intros HF. rewrite Hgo, (proj2 (Rleb_true _ _)); [reflexivity|].
    rewrite Forall_forall in HF. destruct M3 as [-> |Hin]; [apply HF; rewrite Ev; left; reflexivity|apply HF, Hin].
  - intros HE. rewrite (proj2 (Rleb_false _ _)) in Hgo.
    2:{ apply Exists_exists in HE as (w & Hw & Hlt). specialize (M1 w Hw). lra. }
    destruct (increment_thk inc p v0 Hn Hpi Hl0) as (idx & ta & ED & Hcl & HLt & Hsum & Hti & Htl & Htz).
    rewrite ED in Hgo. exists idx, ta. rewrite Ev at 1. cbn [nth].
    split; [exact Hcl|]. split; [exact HLt|]. split; [exact Hsum|]. rewrite Hgo. split; [|split].
    + intros ->. destruct ta; [|discriminate]. reflexivity.
    + intros -> Ha Hb.
      assert (Htne : ta <> []) by (destruct ta, idx; try discriminate; destruct Ha).
      apply Htz in Htne as Hz. pose proof (proj2 Hz (conj Ha Hb)) as Hz0.
      unfold sample_and_cut, class_query_given_thk_profile. cbn [class_thk_arg].
      rewrite HL. fold p.
      assert (HF0 : Forall (fun h => 0 <= h) ta).
      { rewrite (app_removelast_last 0 Htne). apply Forall_app. split; [|constructor; auto].
        eapply Forall_impl; [|exact Hti]. cbn; intros; lra. }
      destruct (C03_midpoint_halfspace_length_mismatch p ta Hne Htne HF0 Hz0) as (vs & EQ & _ & Hnl).
      rewrite EQ. rewrite (proj2 (Nat.eqb_neq (length ta) (length vs))) by auto. reflexivity.
    + intros Hi Hor.
      assert (Htne : ta <> []) by (destruct ta, idx; try discriminate; congruence).
      apply settled_cut; auto. intros ->. intros Hz. apply (Htz Htne) in Hz. destruct Hor as [Hor|[Hor|Hor]]; [discriminate|tauto|tauto].
Qed.

(** A capped profile that starts below the ramp satisfies the hypothesis of the two
    theorems above. *)
Theorem C53_capped_is_settled : forall h target z1 cap eta iterate fuel v c,
  0 < eta <= 1 -> 5 / 2 < z1 -> svm_trial iterate fuel target z1 = Some (Ok v) ->
  cap_value cap = Some c -> 0 < vs0 v <= c * eta ->
  exists h' s, svm_init h target (Some z1) cap eta iterate fuel = Some (h', Ok s) /\ s_z1 s = z1 /\ settled h' s c.
Proof.
  intros h target z1 cap eta iterate fuel v c He Hz Htr Hcv Hv.
  assert (Hc : 0 < c) by (destruct (Rle_dec c 0); [nra|lra]).
  destruct (C53_smooth_profile h target z1 cap eta iterate fuel v c) as
    (h' & s & E & Hok & _ & Hz1 & Hb & (m & Hthk & Hm & Ht1 & Ht2) & _ & _ & _ & Hnd & Hcap & _); auto; [lra|].
  exists h', s. split; [exact E|]. split; [exact Hz1|]. unfold settled.
  split; [exact Hok|]. split; [exact Hb|]. split; [exact Hc|]. split; [lra|]. split.
  { rewrite Hthk. change (12 / 5 :: repeat (1 / 10) m ++ [0]) with ((12 / 5 :: repeat (1 / 10) m) ++ [0]). apply last_last. }
  split; [rewrite Hz1; lra|]. split; [apply Hnd; split; [nra|intros _; lra]|apply Hcap; nra].
Qed.

(** The curve fit of the surface velocity stays between 0 and 379 m/s. *)
Lemma vs0_bounds v : 0 < v <= 2500 -> 0 < vs0 v <= 379.
Proof. intros H. unfold vs0. split; [nra|]. assert (0 <= (v - 1195) ^ 2) by apply pow2_ge_0. nra. Qed.

(** With the default cap and ramp: from a Vs30 and a depth to a profile for analysis. *)
Theorem C53_default_site : forall h Vs30 z1 t mid, 0 < Vs30 <= 2500 -> 5 / 2 < z1 -> 0 < t ->
  exists h1 s h2 o n, svm_init h Vs30 (Some z1) CapTrue (9 / 10) false 0 = Some (h1, Ok s) /\
    nth 0 (vs_of (base_layers h1 s)) 0 = vs0 Vs30 /\ last (vs_of (base_layers h1 s)) 0 = 1000 /\ nondecr (vs_of (base_layers h1 s)) /\
    svm_discretize h1 s (Some t) None mid = (h2, Ok o) /\ discretised h1 s 1000 (repeat t n) mid h2 o.
Proof.
  intros h Vs30 z1 t mid HV Hz Ht. pose proof (vs0_bounds Vs30 HV) as Hb.
  destruct (C53_capped_is_settled h Vs30 z1 CapTrue (9 / 10) false 0 Vs30 1000) as (h1 & s & E & _ & Hs); try reflexivity; try lra.
  destruct (C53_smooth_profile h Vs30 z1 CapTrue (9 / 10) false 0 Vs30 1000) as
    (h1' & s' & E' & _ & _ & _ & _ & _ & _ & H0 & H1 & _); try reflexivity; try lra.
  rewrite E in E'. injection E' as <- <-.
  destruct (C53_fixed_thickness h1 s 1000 t mid Hs Ht) as (n & h2 & o & ED & _ & Hd).
  exists h1, s, h2, o, n. repeat (split; [assumption || apply Hs|]). exact Hd.
Qed.

(** ** The uncapped profile *)
Theorem C53_uncapped_profile : forall h target z1 eta iterate fuel v,
  0 < eta <= 1 -> 5 / 2 < z1 -> svm_trial iterate fuel target z1 = Some (Ok v) -> 0 < vs0 v ->
  exists h' s, svm_init h target (Some z1) NoCap eta iterate fuel = Some (h', Ok s) /\ svm_ok h' s /\
    smooth_layering z1 (thk_of (base_layers h' s)) /\ nondecr (vs_of (base_layers h' s)) /\
    nth 0 (vs_of (base_layers h' s)) 0 = vs0 v /\
    (forall i : nat, INR i / 10 < z1 - 12 / 5 -> nth (S i) (vs_of (base_layers h' s)) 0 = analytic v (INR i / 10)) /\
    forall fixed_thk Vs_increment mid, exists e, snd (svm_discretize h' s fixed_thk Vs_increment mid) = Err e.
Proof.
  intros h target z1 eta iterate fuel v He Hz Htr Hv0.
  destruct (svm_count_spec z1 Hz) as [Hn Hnb].
  destruct (svm_analyt_hd v z1 Hz) as [Hhd Hn0].
  set (l := svm_analyt v z1) in *.
  assert (Hll : length l = svm_count z1) by apply svm_analyt_length.
  assert (Hlnd : nondecr l) by (apply svm_analyt_nondecr; auto).
  assert (Hlpos : forall y, In y l -> vs0 v <= y).
  { intros y Hy. apply (In_nth _ _ 0) in Hy as (k & Hk & <-). specialize (Hlnd 0%nat k ltac:(lia)). lra. }
  set (thk := 12 / 5 :: repeat (1 / 10) (svm_count z1 - 1) ++ [0]).
  assert (HL : length thk = length (vs0 v :: l)).
  { unfold thk. cbn [length]. rewrite !app_length, repeat_length. cbn. lia. }
  assert (Hprof : svm_profile iterate fuel target z1 NoCap eta = Some (Ok (combine thk (vs0 v :: l)))).
  { unfold svm_profile. rewrite (proj2 (Rleb_false z1 (5 / 2))) by lra. rewrite Htr. f_equal.
    unfold cap_value, svm_deep, svm_temp. rewrite svm_thicknesses by auto. cbn [bind]. fold l. rewrite Hhd. cbn [bind].
    rewrite svm_top_eq. reflexivity. }
  assert (HVpos : Forall (fun w => 0 < w) (vs0 v :: l)).
  { constructor; [auto|]. apply Forall_forall. intros x Hx. specialize (Hlpos x Hx). lra. }
  assert (Hint : interior_pos thk).
  { unfold interior_pos, thk. change (12 / 5 :: repeat (1 / 10) (svm_count z1 - 1) ++ [0]) with ((12 / 5 :: repeat (1 / 10) (svm_count z1 - 1)) ++ [0]).
    rewrite removelast_app1. constructor; [lra|]. apply Forall_forall. intros x Hx. apply repeat_spec in Hx. lra. }
  assert (Hl0 : last thk 0 = 0).
  { unfold thk. change (12 / 5 :: repeat (1 / 10) (svm_count z1 - 1) ++ [0]) with ((12 / 5 :: repeat (1 / 10) (svm_count z1 - 1)) ++ [0]). apply last_last. }
  destruct (svm_build h thk (vs0 v :: l) target z1 NoCap HL ltac:(discriminate) Hint Hl0 HVpos) as (h' & o & E & _ & Hok & HB).
  set (s := mksvm target z1 (length h) o (bedrock_attr z1 NoCap)) in *.
  exists h', s. split.
  { unfold svm_init. rewrite (proj2 (Rleb_false eta 0)) by lra. rewrite (proj2 (Rltb_false 1 eta)) by lra. cbn [orb].
    rewrite Hprof. cbn [alloc]. rewrite E. reflexivity. }
  split; [exact Hok|]. rewrite HB, combine_thk, combine_vs by auto.
  split; [apply smooth_layers; auto|]. split; [apply nondecr_cons; auto|]. split; [reflexivity|]. split.
  { intros i Hi. cbn [nth]. apply svm_analyt_nth. apply svm_grid_iff; auto. }
  intros ft vi mid. unfold svm_discretize. cbn [s_bedrock s_z1 s bedrock_attr].
  destruct (match ft with Some _ => _ | None => _ end) as [h1 [o1|e]]; [|exists e; reflexivity].
  unfold truncate. destruct (Rleb z1 0); exists ValueError; reflexivity.
Qed.

(** ** A shallow site: one layer, whatever the cap *)
Theorem C53_shallow_profile : forall h target z1 cap eta iterate fuel, 0 < eta <= 1 -> z1 <= 5 / 2 ->
  (0 < z1 -> 0 < vs0 target ->
   exists h' s, svm_init h target (Some z1) cap eta iterate fuel = Some (h', Ok s) /\ svm_ok h' s /\ s_z1 s = z1 /\
     base_layers h' s = [(z1, vs0 target); (0, 1000)] /\
     s_bedrock s = match cap with NoCap => None | CapTrue => Some 1 | Cap c => Some c end) /\
  (z1 <= 0 \/ vs0 target <= 0 -> exists h' e, svm_init h target (Some z1) cap eta iterate fuel = Some (h', Err e)).
Proof.
  intros h target z1 cap eta iterate fuel He Hz.
  assert (HI : svm_init h target (Some z1) cap eta iterate fuel =
    match vs_init (h ++ [table_of_layers (combine [z1; 0] [vs0 target; 1000])]) (length h) D_1 R_kg false 3 with
    | (h2, Err e) => Some (h2, Err e)
    | (h2, Ok o) => Some (h2, Ok (mksvm target z1 (length h) o (bedrock_attr z1 cap)))
    end).
  { unfold svm_init, svm_profile. rewrite (proj2 (Rleb_false eta 0)) by lra. rewrite (proj2 (Rltb_false 1 eta)) by lra. cbn [orb].
    rewrite (proj2 (Rleb_true z1 (5 / 2))) by lra. reflexivity. }
  rewrite HI. split.
  - intros H0 Hv.
    destruct (svm_build h [z1; 0] [vs0 target; 1000] target z1 cap) as (h' & o & E & _ & Hok & HB); try reflexivity; try discriminate.
    + constructor; [lra|constructor].
    + repeat constructor; lra.
    + exists h', (mksvm target z1 (length h) o (bedrock_attr z1 cap)). rewrite E. split; [reflexivity|]. split; [exact Hok|].
      split; [reflexivity|]. split; [exact HB|]. cbn [s_bedrock]. unfold bedrock_attr. rewrite (proj2 (Rleb_true z1 (5 / 2))) by lra.
      destruct cap; reflexivity.
  - intros Hor. destruct (vs_init _ (length h) D_1 R_kg false 3) as [h2 [o|e]] eqn:E; [|eauto]. exfalso.
    set (T := table_of_layers (combine [z1; 0] [vs0 target; 1000])) in *.
    assert (HT : tbl (h ++ [T]) (length h) = T) by apply tbl_alloc_new.
    assert (HV : valid_table (tbl (h ++ [T]) (length h))).
    { apply (C08_accepts_iff (h ++ [T]) (length h) D_1 R_kg false 3); [rewrite app_length; cbn; lia|rewrite HT; repeat constructor|eauto]. }
    rewrite HT in HV. destruct HV as (five & Hc & init & lst & Er & HF & _).
    destruct five; [discriminate Hc|]. cbn in Er.
    change [[z1; vs0 target]; [0; 1000]] with ([[z1; vs0 target]] ++ [[0; 1000]]) in Er.
    apply app_inj_tail in Er as [<- _]. apply Forall_inv in HF as (t & w & tl & Eq & Ht & Hw & _).
    injection Eq as E1 E2 _. cbn in Ht. lra.
Qed.

(** The default cap of a shallow site is recorded as 1 m/s: that is the half space of
    every profile discretised from it (a defect; 1000 m/s is documented). *)
Theorem C53_shallow_default_half_space : forall h target z1 eta iterate fuel t mid,
  0 < eta <= 1 -> 0 < z1 <= 5 / 2 -> 0 < vs0 target -> 0 < t ->
  exists h1 s h2 o q, svm_init h target (Some z1) CapTrue eta iterate fuel = Some (h1, Ok s) /\
    svm_discretize h1 s (Some t) None mid = (h2, Ok o) /\
    layers_of (o_rows h2 o) = q ++ [(0, 1)] /\ rsum (thk_of q) = z1 /\ last (vs_of (base_layers h1 s)) 0 = 1000.
Proof.
  intros h target z1 eta iterate fuel t mid He Hz Hv Ht.
  destruct (proj1 (C53_shallow_profile h target z1 CapTrue eta iterate fuel He ltac:(lra)) ltac:(lra) Hv) as
    (h1 & s & E & Hok & Hz1 & HB & Hbed).
  pose proof Hok as (Hco & HL & Hzm & _ & _). rewrite HB in Hzm. cbn in Hzm.
  destruct (scalar_array h1 s t mid Ht ltac:(lra)) as (n & Hn & _ & EQ).
  assert (Hin : forall x, In x (repeat t n) -> 0 < x) by (intros x Hx; apply repeat_spec in Hx; lra).
  assert (Hne : repeat t n <> []) by (destruct n; [lia|discriminate]).
  pose proof (Hin _ (last_In _ 0 Hne)) as Hlast.
  destruct (query_profile h1 (s_obj s) (repeat t n) mid Hco Hne) as
    (h2 & o1 & vs & EP & Hco1 & Hint & _); [|lra|intros _; lra|].
  { unfold interior_pos. apply Forall_forall. intros x Hx. apply Hin. rewrite (app_removelast_last 0 Hne). apply in_app_iff; auto. }
  destruct (truncate_layers h2 o1 (s_z1 s) 1 Hco1 Hint ltac:(lra) ltac:(lra)) as (j & h3 & o2 & Hcut & ET & HL2 & _).
  set (L := layers_of (o_rows h2 o1)) in *.
  exists h1, s, h3, o2, (firstn j L ++ [(s_z1 s - top (thk_of L) j, nth j (vs_of L) 0)]).
  split; [exact E|]. split.
  { change (svm_discretize h1 s (Some t) None mid) with (sample_and_cut h1 s (ThkScalar t None) mid). rewrite EQ.
    unfold sample_and_cut. rewrite EP, Hbed. exact ET. }
  split; [rewrite HL2, <- app_assoc; reflexivity|]. split.
  - rewrite thk_of_app', rsum_app, thk_of_firstn. unfold top. cbn. lra.
  - rewrite HB. reflexivity.
Qed.

(** ** Arguments that are rejected *)
Theorem C53_rejected_arguments :
  (forall h target z1 cap eta iterate fuel, eta <= 0 \/ 1 < eta ->
     svm_init h target z1 cap eta iterate fuel = Some (h, Err ValueError)) /\
  (forall h s mid, svm_discretize h s None None mid = (h, Err ValueError)) /\
  (forall h s t inc mid, svm_discretize h s (Some t) (Some inc) mid = (h, Err ValueError)).
Proof.
  split; [|split]; [|reflexivity|reflexivity].
  intros h target z1 cap eta iterate fuel He. unfold svm_init.
  replace (Rleb eta 0 || Rltb 1 eta) with true; [reflexivity|]. symmetry. apply orb_true_iff.
  rewrite Rleb_true, Rltb_true. exact He.
Qed.

(** ** Iteration towards the target *)
Theorem C53_iteration : forall fuel target z1 v, svm_trial true fuel target z1 = Some (Ok v) ->
  (v = target \/ 130 <= v <= 1000) /\
  exists p a, svm_temp v z1 = Ok p /\ calc_Vs30 p 1 = Ok a /\
    (Rabs (a - target) <= 10 \/ v - (a - target) / 5 < 130 \/ 1000 < v - (a - target) / 5).
Proof.
  intros fuel target z1 v. unfold svm_trial.
  assert (HG : forall fuel w, (w = target \/ 130 <= w <= 1000) -> svm_search fuel target z1 w = Some (Ok v) ->
    (v = target \/ 130 <= v <= 1000) /\
    exists p a, svm_temp v z1 = Ok p /\ calc_Vs30 p 1 = Ok a /\
      (Rabs (a - target) <= 10 \/ v - (a - target) / 5 < 130 \/ 1000 < v - (a - target) / 5)).
  { clear fuel. induction fuel as [|f IH]; intros w Hw H; [discriminate|]. cbn [svm_search] in H.
    destruct (svm_temp w z1) as [p|] eqn:Ep; cbn [bind] in H; [|discriminate].
    destruct (calc_Vs30 p 1) as [a|] eqn:Ea; [|discriminate].
    destruct (Rleb_spec (target - 10) a) as [Ha|Ha]; cbn [andb] in H;
      [destruct (Rleb_spec a (target + 10)) as [Hb|Hb]|].
    - injection H as <-. split; [exact Hw|]. exists p, a. repeat split; auto. left. apply Rabs_le. lra.
    - set (w' := w - (a - target) / 5) in *. destruct (Rltb_spec w' 130) as [Hl|Hl]; cbn [orb] in H.
      + injection H as <-. split; [exact Hw|]. exists p, a. repeat split; auto.
      + destruct (Rltb_spec 1000 w') as [Hr|Hr].
        * injection H as <-. split; [exact Hw|]. exists p, a. repeat split; auto.
        * apply (IH w'); auto. right. lra.
    - set (w' := w - (a - target) / 5) in *. destruct (Rltb_spec w' 130) as [Hl|Hl]; cbn [orb] in H.
      + injection H as <-. split; [exact Hw|]. exists p, a. repeat split; auto.
      + destruct (Rltb_spec 1000 w') as [Hr|Hr].
        * injection H as <-. split; [exact Hw|]. exists p, a. repeat split; auto.
        * apply (IH w'); auto. right. lra. }
  apply HG. left. reflexivity.
Qed.

(** More fuel changes nothing. *)
Theorem C53_iteration_fuel : forall f f' target z1 r, svm_trial true f target z1 = Some r -> (f <= f')%nat -> svm_trial true f' target z1 = Some r.
Proof.
  intros f f' target z1 r. unfold svm_trial. generalize target at 2 4. revert f'.
  induction f as [|f IH]; intros f' w H Hle; [discriminate|]. destruct f' as [|f']; [lia|]. cbn [svm_search] in *.
  destruct (let! p := svm_temp w z1 in calc_Vs30 p 1) as [a|]; [|exact H].
  destruct (Rleb _ _ && Rleb _ _); [exact H|]. destruct (Rltb _ 130 || _); [exact H|]. apply IH; [exact H|lia].
Qed.

(** ** Non-vacuity *)
Example C53_instance_default : exists h1 s h2 o n, svm_init [] 270 (Some 100) CapTrue (9 / 10) false 0 = Some (h1, Ok s) /\
  svm_discretize h1 s (Some 5) None true = (h2, Ok o) /\ discretised h1 s 1000 (repeat 5 n) true h2 o.
Proof.
  destruct (C53_default_site [] 270 100 5 true) as (h1 & s & h2 & o & n & H1 & _ & _ & _ & H2 & H3); try lra.
  exists h1, s, h2, o, n. auto.
Qed.

(** Three rows, increments of 300 m/s: only the last row closes a layer. *)
Example C53_instance_increment : exists h s, settled h s 1000 /\ exists h' o' ta,
  svm_discretize h s None (Some 300) true = (h', Ok o') /\ discretised h s 1000 ta true h' o'.
Proof.
  destruct (svm_build [] [12 / 5; 1 / 10; 0] [200; 400; 1000] 270 3 (Cap 1000)) as (h & o & E & _ & Hok & HB);
    try reflexivity; try discriminate.
  { repeat constructor; lra. } { repeat constructor; lra. }
  set (s := mksvm 270 3 (length (@nil table)) o (bedrock_attr 3 (Cap 1000))) in *.
  assert (Hs : settled h s 1000).
  { unfold settled. rewrite HB. cbn. split; [exact Hok|]. split; [reflexivity|]. repeat split; try lra.
    - intros a b [Hab Hb]. cbn in Hb. destruct a as [|[|[|]]]; destruct b as [|[|[|]]]; cbn; try lra; lia.
    - intros v [<-|[<-|[<-|[]]]]; lra. }
  exists h, s. split; [exact Hs|].
  destruct (C53_velocity_increment h s 1000 300 true Hs) as [_ H]. rewrite HB in H. cbn in H.
  destruct H as (idx & ta & (H1 & H2 & H3 & H4) & HL & _ & _ & _ & HOk).
  { right; right; left; lra. }
  cbn [length nth] in *.
  assert (Hi : idx <> []). { intros ->. specialize (H3 2%nat ltac:(lia) (or_introl eq_refl)). cbn in H3. lra. }
  destruct (HOk Hi) as (h' & o' & ED & Hd); [|exists h', o', ta; auto].
  right. left. intros Hin. apply (In_nth _ _ 0%nat) in Hin as (m & Hm & Em). destruct (H2 m Hm) as [_ Hge].
  rewrite Em in Hge. cbn in Hge. assert (0 <= INR m) by apply pos_INR. destruct m; lra.
Qed.
