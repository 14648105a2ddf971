(** C54: randomised profiles of the sediment velocity model (class_svm.py:467-790). *)
From Coq Require Import Reals List Bool ZArith Lia Lra.
From Verif Require Import Base M_generic P_generic M_profile P_profile Prop_profile M_vs_profile P_vs_profile Prop_vs_profile Prop_vs_query M_svm P_svm P_svm2 Prop_svm.
Import ListNotations.
Open Scope R_scope.

(** ** Layering *)
Lemma layering_spec z1 prop : forall fuel thk zt, rsum thk = zt -> (thk = [] \/ zt < z1) -> Forall (fun t => 2 <= t) thk ->
  0 < z1 -> z1 - zt <= 2 * INR fuel -> (0 < fuel)%nat ->
  exists thk', svm_layering fuel z1 prop thk zt = Some thk' /\ thk' <> [] /\ Forall (fun t => 2 <= t) thk' /\
    rsum (removelast thk') < z1 <= rsum thk' /\ (forall f', (fuel <= f')%nat -> svm_layering f' z1 prop thk zt = Some thk').
Proof.
  induction fuel as [|f IH]; intros thk zt Hs Hlt HF Hz Hfuel Hpos; [lia|].
  pose proof (Rmax_r (prop thk) 2) as Hm. cbn [svm_layering]. set (t := Rmax (prop thk) 2) in *.
  assert (HF' : Forall (fun t => 2 <= t) (thk ++ [t])) by (apply Forall_app; split; [auto|constructor; auto]).
  assert (Hs' : rsum (thk ++ [t]) = zt + t) by (rewrite rsum_app; cbn; lra).
  destruct (Rltb_spec (zt + t) z1) as [Hb|Hb].
  - destruct (IH (thk ++ [t]) (zt + t) Hs' (or_intror Hb) HF' Hz) as (thk' & E & H1 & H2 & H3 & H4).
    + rewrite S_INR in Hfuel. lra.
    + destruct f; [|lia]. rewrite S_INR in Hfuel. cbn in Hfuel. lra.
    + exists thk'. split; [exact E|]. split; [exact H1|]. split; [exact H2|]. split; [exact H3|].
      intros [|f'] Hf; [lia|]. cbn [svm_layering]. fold t. rewrite (proj2 (Rltb_true _ _) Hb). apply H4. lia.
  - exists (thk ++ [t]). split; [reflexivity|]. split; [destruct thk; discriminate|]. split; [exact HF'|]. split.
    + rewrite removelast_app1, Hs'. split; [|lra]. rewrite Hs. destruct Hlt as [E0|Hlt]; [subst thk; cbn in Hs; lra|lra].
    + intros [|f'] Hf; [lia|]. cbn [svm_layering]. fold t. rewrite (proj2 (Rltb_false _ _)) by lra. reflexivity.
Qed.

(** Whatever the sampler proposes, the layering stops within z1 / 2 + 1 rounds; all
    layers but the last are at least 2 m, the last is positive, and they add up to z1. *)
Theorem C54_layering_terminates : forall z1 prop fuel, 0 < z1 -> z1 <= 2 * INR fuel ->
  exists thk0, svm_layering fuel z1 prop [] 0 = Some thk0 /\
    (forall f', (fuel <= f')%nat -> svm_layering f' z1 prop [] 0 = Some thk0) /\
    let thk := adjust_last z1 thk0 in
    length thk = length thk0 /\ thk <> [] /\ Forall (fun t => 2 <= t) (removelast thk) /\ 0 < last thk 0 <= last thk0 0 /\ rsum thk = z1.
Proof.
  intros z1 prop fuel Hz Hf.
  assert (Hpos : (0 < fuel)%nat) by (destruct fuel; [cbn in Hf; lra|lia]).
  destruct (layering_spec z1 prop fuel [] 0) as (thk0 & E & Hne & HF & [Hlo Hhi] & Hmore); auto; try (cbn; lra).
  exists thk0. split; [exact E|]. split; [exact Hmore|]. cbv zeta. unfold adjust_last.
  rewrite (app_removelast_last 0 Hne) in HF, Hhi. rewrite rsum_app in Hhi. cbn in Hhi. apply Forall_app in HF as [HF _].
  split.
  { pose proof (f_equal (@length R) (app_removelast_last 0 Hne)) as HL. rewrite app_length in HL |- *. cbn in *. lia. }
  split; [destruct (removelast thk0); discriminate|]. rewrite removelast_app1, last_last, rsum_app. cbn.
  split; [exact HF|]. split; [lra|lra].
Qed.

(** ** Correlation *)
Theorem C54_correlation_in_unit_interval : forall Vs30 z_mid thk, 0 < z_mid -> 0 <= thk ->
  0 <= rho_1L (toro_of Vs30) z_mid thk <= 1.
Proof.
  intros Vs30 z t Hz Ht.
  assert (HG : forall c, 0 <= t_rho0 c <= 1 -> 0 < t_delta c -> 0 <= t_rho200 c <= 1 -> 0 < t_b c -> 0 <= rho_1L c z t <= 1).
  { intros c [H1 H2] H3 [H4 H5] H6. unfold rho_1L.
    assert (HA : 0 <= (if Rltb 200 z then t_rho200 c else t_rho200 c * Rpower ((z + 0) / (200 + 0)) (t_b c)) <= 1).
    { destruct (Rltb_spec 200 z) as [Hl|Hl]; [lra|].
      assert (Hp : 0 < Rpower ((z + 0) / (200 + 0)) (t_b c) <= 1).
      { replace ((z + 0) / (200 + 0)) with (z / 200) by (rewrite !Rplus_0_r; reflexivity).
        split; [apply exp_pos|]. unfold Rpower.
        assert (Hln : ln (z / 200) <= 0).
        { destruct (Rle_lt_or_eq_dec z 200 ltac:(lra)) as [Hlt| ->].
          - left. rewrite <- ln_1. apply ln_increasing; lra.
          - replace (200 / 200) with 1 by lra. rewrite ln_1. lra. }
        rewrite <- exp_0. destruct (Rle_lt_or_eq_dec (t_b c * ln (z / 200)) 0 ltac:(nra)) as [Hlt| ->]; [left; apply exp_increasing, Hlt|lra]. }
      nra. }
    assert (HB : 0 <= t_rho0 c * exp (- t / t_delta c) <= 1).
    { assert (0 < exp (- t / t_delta c) <= 1).
      { split; [apply exp_pos|]. rewrite <- exp_0. destruct (Rle_lt_or_eq_dec 0 t Ht) as [Hlt| <-].
        - left. apply exp_increasing. apply Ropp_lt_cancel. rewrite Ropp_0. replace (- (- t / t_delta c)) with (t / t_delta c) by (field; lra). apply Rdiv_lt_0_compat; lra.
        - right. f_equal. field. lra. }
      nra. }
    nra. }
  apply HG; unfold toro_of; destruct (Rltb Vs30 180); [|destruct (Rltb Vs30 360); [|destruct (Rltb Vs30 760)]| |destruct (Rltb Vs30 360); [|destruct (Rltb Vs30 760)]
    | |destruct (Rltb Vs30 360); [|destruct (Rltb Vs30 760)]| |destruct (Rltb Vs30 360); [|destruct (Rltb Vs30 760)]]; cbn; lra.
Qed.

(** ** Velocities *)
Lemma svm_Y_spec c g l : forall i y, length (svm_Y c g i y l) = length l /\
  forall k, (k < length l)%nat -> nth k (svm_Y c g i y l) 0 =
    let r := rho_1L c (fst (nth k l (0, 0))) (snd (nth k l (0, 0))) in
    if Nat.eqb (i + k) 0 then g 0%nat else r * nth k (y :: svm_Y c g i y l) 0 + g (i + k)%nat * sqrt (1 - r ^ 2).
Proof.
  induction l as [|[z t] l IH]; intros i y; cbn [svm_Y length]; [split; [reflexivity|intros; lia]|].
  destruct (IH (S i) (if Nat.eqb i 0 then g 0%nat else rho_1L c z t * y + g i * sqrt (1 - rho_1L c z t ^ 2))) as [IH1 IH2].
  split; [rewrite IH1; reflexivity|]. intros [|k] Hk; cbn [nth fst snd].
  - rewrite Nat.add_0_r. reflexivity.
  - rewrite IH2 by lia. replace (S i + k)%nat with (i + S k)%nat by lia. reflexivity.
Qed.

(** The smooth profile row whose top is closest to the depth [d]. *)
Definition closest_row (p : list layer) (d : R) (i : nat) : Prop :=
  (i < length p)%nat /\ (forall j, (j < length p)%nat -> Rabs (top (thk_of p) i - d) <= Rabs (top (thk_of p) j - d)) /\
  (forall j, (j < i)%nat -> Rabs (top (thk_of p) i - d) < Rabs (top (thk_of p) j - d)).

Definition mid_depth (thk : list R) (k : nat) : R := rsum (firstn k thk) + nth k thk 0 / 2.

(** A realisation: standard normal deviates [g] filtered through the correlation of
    neighbouring layers; each velocity is the closest smooth one times exp (sigma Y). *)
Definition realisation (base : list layer) (Vs30 : R) (std : bool) (g : nat -> R) (thk vs : list R) : Prop :=
  length vs = length thk /\ exists Y,
    length Y = length thk /\ nth 0 Y 0 = g 0%nat /\
    (forall k, (S k < length thk)%nat -> exists r, r = rho_1L (toro_of Vs30) (mid_depth thk (S k)) (nth (S k) thk 0) /\ 0 <= 1 - r ^ 2 /\
       nth (S k) Y 0 = r * nth k Y 0 + g (S k) * sqrt (1 - r ^ 2)) /\
    (forall k, (k < length thk)%nat -> exists i v, closest_row base (mid_depth thk k) i /\ nth_error (vs_of base) i = Some v /\
       nth k vs 0 = v * exp (nth k Y 0 * svm_sigma std (toro_of Vs30) v)).

Lemma closest_ok p d : p <> [] -> exists i, find_index_closest (z_top_from 0 (thk_of p)) d = Ok i /\ closest_row p d i.
Proof.
  intros Hne. assert (HL : length (z_top_from 0 (thk_of p)) = length p) by (rewrite z_top_length; apply map_length).
  set (l := map (fun x => Rabs (x - d)) (z_top_from 0 (thk_of p))).
  assert (Hll : length l = length p) by (unfold l; rewrite map_length; exact HL).
  assert (Hlne : l <> []) by (intros E; rewrite E in Hll; destruct p; [congruence|discriminate]).
  destruct (argmin_spec l Hlne) as (x & Hx & HF & Hmin).
  assert (Hnth : forall j, (j < length p)%nat -> nth_error l j = Some (Rabs (top (thk_of p) j - d))).
  { intros j Hj. unfold l. rewrite (map_nth_error _ j _ (d := top (thk_of p) j)); [reflexivity|].
    rewrite (nth_error_nth' _ 0) by lia. f_equal. rewrite z_top_nth by (unfold thk_of; rewrite map_length; exact Hj). lra. }
  assert (Hr : (argmin l < length p)%nat) by (rewrite <- Hll; apply nth_error_Some; congruence).
  exists (argmin l). split.
  - unfold find_index_closest. destruct (z_top_from 0 (thk_of p)) eqn:E; [cbn in HL; destruct p; [congruence|discriminate]|]. reflexivity.
  - rewrite Hnth in Hx by auto. injection Hx as <-. rewrite Forall_forall in HF. split; [exact Hr|]. split.
    + intros j Hj. apply HF. eapply nth_error_In. apply Hnth, Hj.
    + intros j Hj. apply (Hmin j); [exact Hj|]. apply Hnth. lia.
Qed.

Lemma map_res_pointwise {A B} (f : A -> res B) (P : A -> B -> Prop) l (d : A) (d' : B) :
  (forall x, In x l -> exists y, f x = Ok y /\ P x y) ->
  exists ys, map_res f l = Ok ys /\ length ys = length l /\ forall k, (k < length l)%nat -> P (nth k l d) (nth k ys d').
Proof.
  induction l as [|x l IH]; intros H.
  - exists []. split; [reflexivity|]. split; [reflexivity|]. cbn; intros; lia.
  - destruct (H x (or_introl eq_refl)) as (y & Ey & Py). destruct IH as (ys & E & HL & HP); [intros; apply H; right; auto|].
    exists (y :: ys). cbn [map_res]. rewrite Ey. cbn [bind]. rewrite E. cbn [bind length]. split; [reflexivity|]. split; [rewrite HL; reflexivity|].
    intros [|k] Hk; cbn [nth]; [exact Py|apply HP; cbn in Hk; lia].
Qed.

Theorem C54_realisation : forall base Vs30 z1 std thk0 g, base <> [] -> Forall (fun v => 0 < v) (vs_of base) ->
  let thk := adjust_last z1 thk0 in
  thk <> [] -> Forall (fun t => 0 < t) thk ->
  exists vs, svm_realize base Vs30 z1 std thk0 g = Ok (combine thk vs ++ (if Rltb (last vs 0) 1000 then [(0, 1000)] else [])) /\
    realisation base Vs30 std g thk vs /\ Forall (fun v => 0 < v) vs.
Proof.
  intros base Vs30 z1 std thk0 g Hb Hbpos thk Hne Hpos.
  assert (Hlpos : 0 < last thk 0).
  { rewrite Forall_forall in Hpos. apply Hpos, last_In, Hne. }
  assert (Hmid : thk2dep thk true = Ok (z_mid_from 0 thk)).
  { unfold thk2dep. rewrite (last_res_ok thk 0 Hne). cbn [bind negb]. rewrite (proj2 (Reqb_false _ 0)) by lra. reflexivity. }
  assert (Htop : thk2dep (thk_of base) false = Ok (z_top_from 0 (thk_of base))).
  { unfold thk2dep. rewrite (last_res_ok _ 0) by (destruct base; [congruence|discriminate]). reflexivity. }
  set (zm := z_mid_from 0 thk) in *.
  assert (Hzl : length zm = length thk) by apply z_mid_length.
  assert (Hzn : forall k, (k < length thk)%nat -> nth k zm 0 = mid_depth thk k).
  { intros k Hk. unfold zm. rewrite z_mid_nth by auto. unfold mid_depth, top. lra. }
  destruct (map_res_pointwise (find_index_closest (z_top_from 0 (thk_of base))) (closest_row base) zm 0 0%nat) as (idx & Eidx & HLi & Hidx).
  { intros d _. apply closest_ok, Hb. }
  destruct (map_res_pointwise (get (vs_of base)) (fun i v => nth_error (vs_of base) i = Some v) idx 0%nat 0) as (vb & Evb & HLv & Hvb).
  { intros i Hi. apply (In_nth _ _ 0%nat) in Hi as (k & Hk & <-). destruct (Hidx k ltac:(lia)) as (Hr & _).
    exists (nth (nth k idx 0%nat) (vs_of base) 0). unfold get.
    rewrite (nth_error_nth' (vs_of base) 0) by (unfold vs_of; rewrite map_length; exact Hr). auto. }
  set (Y := svm_Y (toro_of Vs30) g 0 0 (combine zm thk)).
  destruct (svm_Y_spec (toro_of Vs30) g (combine zm thk) 0 0) as [HYl HY]. fold Y in HYl, HY.
  rewrite combine_length, Hzl, Nat.min_id in HYl.
  set (F := fun q : R * R => fst q * exp (snd q * svm_sigma std (toro_of Vs30) (fst q))).
  set (vs := map F (combine vb Y)).
  assert (HVl : length vs = length thk) by (unfold vs; rewrite map_length, combine_length; lia).
  assert (HVn : forall k, (k < length thk)%nat -> nth k vs 0 = nth k vb 0 * exp (nth k Y 0 * svm_sigma std (toro_of Vs30) (nth k vb 0))).
  { intros k Hk. unfold vs. rewrite (nth_indep _ 0 (F (0, 0))) by (fold vs; lia). rewrite map_nth, combine_nth by lia. reflexivity. }
  exists vs. split; [|split].
  - unfold svm_realize. fold thk. rewrite Hmid. cbn [bind]. rewrite Htop. cbn [bind]. cbv zeta. rewrite Hzl, Nat.leb_refl.
    cbn [bind]. rewrite <- Hzl, firstn_all, Eidx. cbn [bind]. rewrite Evb. cbn [bind]. fold Y F vs.
    rewrite (last_res_ok vs 0) by (destruct vs; [destruct thk; [congruence|discriminate]|discriminate]). reflexivity.
  - split; [exact HVl|]. exists Y. split; [exact HYl|].
    assert (Hcn : forall k, (k < length thk)%nat -> nth k (combine zm thk) (0, 0) = (mid_depth thk k, nth k thk 0)).
    { intros k Hk. rewrite combine_nth by auto. rewrite Hzn by auto. reflexivity. }
    assert (H0 : (0 < length thk)%nat) by (destruct thk; [congruence|cbn; lia]).
    rewrite combine_length, Hzl, Nat.min_id in HY. split; [|split].
    + rewrite HY by auto. reflexivity.
    + intros k Hk. exists (rho_1L (toro_of Vs30) (mid_depth thk (S k)) (nth (S k) thk 0)). split; [reflexivity|]. split.
      * rewrite Forall_forall in Hpos. pose proof (Hpos _ (nth_In thk 0 Hk)) as Ht.
        pose proof (C54_correlation_in_unit_interval Vs30 (mid_depth thk (S k)) (nth (S k) thk 0)) as Hr.
        assert (Hm : 0 < mid_depth thk (S k)).
        { unfold mid_depth. pose proof (top_mono thk) as HM. unfold top in HM.
          specialize (HM ltac:(apply Forall_forall; intros x Hx; left; apply Hpos, Hx) 0%nat (S k) ltac:(lia)).
          change (rsum (firstn 0 thk)) with 0 in HM. lra. }
        specialize (Hr Hm ltac:(lra)). nra.
      * rewrite HY by auto. rewrite Hcn by auto. cbn [fst snd plus Nat.eqb nth]. reflexivity.
    + intros k Hk. exists (nth k idx 0%nat), (nth k vb 0). rewrite <- Hzn by auto. split; [apply Hidx; lia|].
      split; [apply Hvb; lia|]. apply HVn, Hk.
  - apply Forall_forall. intros v Hv. apply (In_nth _ _ 0) in Hv as (k & Hk & <-). rewrite HVn by lia.
    apply Rmult_lt_0_compat; [|apply exp_pos]. rewrite Forall_forall in Hbpos. apply Hbpos.
    eapply nth_error_In. apply Hvb. lia.
Qed.

(** ** The object returned *)
Lemma svm_ok_base h s : svm_ok h s -> base_layers h s <> [] /\ Forall (fun v => 0 < v) (vs_of (base_layers h s)).
Proof.
  intros (Hco & HL & _). assert (Hg : good_rows true (o_rows h (s_obj s))) by apply Hco. rewrite <- HL. split.
  - apply good_rows_ne in Hg. destruct (o_rows h (s_obj s)); [congruence|discriminate].
  - rewrite vs_of_layers. apply Forall_forall. intros v Hv. apply in_map_iff in Hv as (r & <- & Hr).
    pose proof (good_rows_cells _ _ Hg) as HC. rewrite Forall_forall in HC. apply HC, Hr.
Qed.

(** Layers of a random profile of total thickness z1 and its velocities. *)
Definition random_profile (h : heap) (s : svm) (std : bool) (sm : sampler) (seed : Z) (p : list layer) : Prop :=
  exists thk vs, p = combine thk vs ++ (if Rltb (last vs 0) 1000 then [(0, 1000)] else []) /\
    thk <> [] /\ Forall (fun t => 2 <= t) (removelast thk) /\ 0 < last thk 0 /\ rsum thk = s_z1 s /\
    realisation (base_layers h s) (s_Vs30 s) std (sm_norm sm seed) thk vs /\ Forall (fun v => 0 < v) vs.

Lemma draw_spec h s std sm seed fuel : svm_ok h s -> 0 < s_z1 s -> s_z1 s <= 2 * INR fuel -> (0 <= seed)%Z -> (2 * seed < 2 ^ 32)%Z ->
  exists p, svm_draw fuel (base_layers h s) s std sm seed = Some (Ok p) /\ random_profile h s std sm seed p.
Proof.
  intros Hok Hz Hf Hs0 Hs1. destruct (svm_ok_base h s Hok) as [Hb Hbp].
  destruct (C54_layering_terminates (s_z1 s) (sm_prop sm seed) fuel Hz Hf) as (thk0 & E & _ & HL & Hne & HF & Hl & Hsum).
  set (thk := adjust_last (s_z1 s) thk0) in *.
  assert (Hpos : Forall (fun t => 0 < t) thk).
  { rewrite (app_removelast_last 0 Hne). apply Forall_app. split; [|constructor; [lra|constructor]].
    eapply Forall_impl; [|exact HF]. cbn; intros; lra. }
  destruct (C54_realisation (base_layers h s) (s_Vs30 s) (s_z1 s) std thk0 (sm_norm sm seed) Hb Hbp Hne Hpos) as (vs & ER & HR & HV).
  exists (combine thk vs ++ (if Rltb (last vs 0) 1000 then [(0, 1000)] else [])). split.
  - unfold svm_draw, seed_ok. rewrite (proj2 (Z.leb_le _ _) Hs0), (proj2 (Z.ltb_lt _ _) Hs1). cbn [andb negb]. rewrite E, ER. reflexivity.
  - exists thk, vs. repeat (split; [assumption || reflexivity || lra|]). exact HV.
Qed.

Lemma split_rows (p : list layer) : combine (thk_of p) (vs_of p) = p.
Proof. induction p as [|[a b] p IH]; [reflexivity|]. cbn. f_equal. exact IH. Qed.

Lemma random_accepted h s std sm seed p : random_profile h s std sm seed p ->
  exists h' o, vs_init (h ++ [table_of_layers p]) (length h) D_1 R_kg false 3 = (h', Ok o) /\ coherent h' o /\
    o_zmax o = s_z1 s /\ layers_of (o_rows h' o) = p /\ (forall l, (l < length h)%nat -> tbl h' l = tbl h l).
Proof.
  intros (thk & vs & -> & Hne & HF & Hl & Hsum & (HLv & _) & HV).
  set (tl := if Rltb (last vs 0) 1000 then [(0, 1000)] else []).
  set (p := combine thk vs ++ tl).
  assert (Ht : thk_of p = thk ++ thk_of tl) by (unfold p; rewrite thk_of_app', combine_thk by auto; reflexivity).
  assert (Hv : vs_of p = vs ++ vs_of tl) by (unfold p; rewrite vs_of_app, combine_vs by auto; reflexivity).
  assert (Hpos : Forall (fun t => 0 < t) thk).
  { rewrite (app_removelast_last 0 Hne). apply Forall_app. split; [|constructor; [lra|constructor]].
    eapply Forall_impl; [|exact HF]. cbn; intros; lra. }
  assert (Htl : tl = [] \/ tl = [(0, 1000)]) by (unfold tl; destruct (Rltb _ _); auto).
  replace (table_of_layers p) with (mktable false 2 (table2 (thk_of p) (vs_of p))).
  2:{ unfold table_of_layers, table2. rewrite split_rows. reflexivity. }
  destruct (build_profile h (thk_of p) (vs_of p) false) as (h' & o & E & Hco & Hz & Hlay & Hold).
  - unfold thk_of, vs_of. rewrite !map_length. reflexivity.
  - rewrite Ht. destruct thk; [congruence|discriminate].
  - rewrite Ht. unfold interior_pos. destruct Htl as [-> | ->]; cbn [thk_of map fst].
    + rewrite app_nil_r. eapply Forall_impl; [|exact HF]. cbn; intros; lra.
    + rewrite removelast_app1. exact Hpos.
  - rewrite Ht. destruct Htl as [-> | ->]; cbn [thk_of map fst]; [rewrite app_nil_r; lra|rewrite last_last; lra].
  - rewrite Hv. apply Forall_app. split; [exact HV|]. destruct Htl as [-> | ->]; cbn; repeat constructor; lra.
  - exists h', o. split; [exact E|]. split; [exact Hco|]. split; [|split].
    + rewrite Hz, Ht, rsum_app, Hsum. destruct Htl as [-> | ->]; cbn; lra.
    + destruct Hlay as [Hlay|(Hf & _)]; [rewrite Hlay; apply split_rows|discriminate].
    + exact Hold.
Qed.

(** One draw: every seed NumPy accepts, every outcome of its generators. *)
Theorem C54_random_profile : forall rounds fuel h s std sm seed, svm_ok h s -> 0 < s_z1 s -> s_z1 s <= 2 * INR fuel ->
  ((0 <= seed)%Z /\ (2 * seed < 2 ^ 32)%Z ->
   exists h' o p, svm_randomize rounds fuel h s std false sm seed = Some (h', Ok o) /\ random_profile h s std sm seed p /\
     coherent h' o /\ layers_of (o_rows h' o) = p /\ o_zmax o = s_z1 s /\ (forall l, (l < length h)%nat -> tbl h' l = tbl h l)) /\
  ((seed < 0)%Z \/ (2 ^ 32 <= 2 * seed)%Z -> svm_randomize rounds fuel h s std false sm seed = Some (h, Err ValueError)).
Proof.
  intros rounds fuel h s std sm seed Hok Hz Hf. split.
  - intros [H0 H1]. destruct (draw_spec h s std sm seed fuel Hok Hz Hf H0 H1) as (p & Ed & Hp).
    destruct (random_accepted h s std sm seed p Hp) as (h' & o & E & Hco & Hzm & HL & Hold).
    exists h', o, p. split; [|auto 10]. unfold svm_randomize. rewrite Ed. cbn [alloc]. rewrite E. reflexivity.
  - intros Hs. unfold svm_randomize, svm_draw, seed_ok.
    replace ((0 <=? seed)%Z && (2 * seed <? 2 ^ 32)%Z) with false; [reflexivity|]. symmetry. apply andb_false_iff.
    destruct Hs as [Hs|Hs]; [left; apply Z.leb_gt; exact Hs|right; apply Z.ltb_ge; exact Hs].
Qed.

(** ** Compliance *)

(** The documented criteria: Vs30 within 25 m/s, bottom velocity within 5 %, z1 within 20 %. *)
Definition criteria (base : list layer) (Vs30 : R) (p : list layer) : Prop :=
  exists r30 rz bz vl bl, calc_Vs30 p 1 = Ok r30 /\ calc_z1 p = Ok rz /\ calc_z1 base = Ok bz /\ last_res (vs_of p) = Ok vl /\
    last_res (vs_of base) = Ok bl /\
    Rabs (r30 - Vs30) < 25 /\ Rabs (vl - bl) / bl < 5 / 100 /\ Rabs (rz - bz) / bz < 20 / 100.

Lemma compliant_true base V p : svm_compliant base V p = Ok true <-> criteria base V p.
Proof.
  unfold svm_compliant, criteria. split.
  - destruct (calc_Vs30 p 1) as [a|] eqn:E1; [|discriminate]. destruct (last_res (vs_of p)) as [b|] eqn:E2; [|discriminate].
    destruct (calc_z1 p) as [c|] eqn:E3; [|discriminate]. destruct (last_res (vs_of base)) as [d|] eqn:E4; [|discriminate].
    destruct (calc_z1 base) as [e|] eqn:E5; [|discriminate]. cbn [bind]. intros H. injection H as H.
    apply andb_true_iff in H as [H H3]. apply andb_true_iff in H as [H1 H2]. apply Rltb_true in H1, H2, H3.
    exists a, c, e, b, d. auto 10.
  - intros (a & c & e & b & d & -> & -> & -> & -> & -> & H1 & H2 & H3). cbn [bind].
    rewrite (proj2 (Rltb_true _ _) H1), (proj2 (Rltb_true _ _) H2), (proj2 (Rltb_true _ _) H3). reflexivity.
Qed.

(** The profile returned is the first compliant one among seed, seed + 1, ... *)
Theorem C54_compliance : forall rounds fuel h s std sm seed h' o, svm_ok h s -> 0 < s_z1 s -> s_z1 s <= 2 * INR fuel ->
  svm_randomize rounds fuel h s std true sm seed = Some (h', Ok o) ->
  exists (k : nat) p, (k < rounds)%nat /\ random_profile h s std sm (seed + Z.of_nat k) p /\
    criteria (base_layers h s) (s_Vs30 s) p /\ layers_of (o_rows h' o) = p /\ o_zmax o = s_z1 s /\ coherent h' o /\
    forall i : nat, (i < k)%nat -> exists q, random_profile h s std sm (seed + Z.of_nat i) q /\
      svm_compliant (base_layers h s) (s_Vs30 s) q = Ok false /\ ~ criteria (base_layers h s) (s_Vs30 s) q.
Proof.
  intros rounds fuel h s std sm seed h' o Hok Hz Hf H. unfold svm_randomize in H.
  destruct (svm_comply rounds fuel (base_layers h s) s std sm seed) as [[p|e]|] eqn:EC; try discriminate.
  assert (HG : forall rounds seed p, svm_comply rounds fuel (base_layers h s) s std sm seed = Some (Ok p) ->
    exists k : nat, (k < rounds)%nat /\ random_profile h s std sm (seed + Z.of_nat k) p /\
      criteria (base_layers h s) (s_Vs30 s) p /\
      forall i : nat, (i < k)%nat -> exists q, random_profile h s std sm (seed + Z.of_nat i) q /\
        svm_compliant (base_layers h s) (s_Vs30 s) q = Ok false /\ ~ criteria (base_layers h s) (s_Vs30 s) q).
  { assert (HD : forall seed p, svm_draw fuel (base_layers h s) s std sm seed = Some (Ok p) -> random_profile h s std sm seed p).
    { clear -Hok Hz Hf. intros seed p H. destruct (seed_ok seed) eqn:Es; [|unfold svm_draw in H; rewrite Es in H; discriminate].
      unfold seed_ok in Es. apply andb_true_iff in Es as [E0 E1].
      destruct (draw_spec h s std sm seed fuel Hok Hz Hf) as (q & Eq & Hq); [apply Z.leb_le, E0|apply Z.ltb_lt, E1|].
      rewrite Eq in H. injection H as <-. exact Hq. }
    clear -HD. induction rounds as [|r IH]; intros seed p H; [discriminate|]. cbn [svm_comply] in H.
    destruct (svm_draw fuel (base_layers h s) s std sm seed) as [[q|e]|] eqn:Ed; try discriminate.
    destruct (svm_compliant (base_layers h s) (s_Vs30 s) q) as [[|]|] eqn:Ec; try discriminate.
    - injection H as <-. exists 0%nat. rewrite Z.add_0_r. split; [lia|]. split; [apply HD, Ed|]. split; [apply compliant_true, Ec|intros; lia].
    - destruct (IH _ _ H) as (k & Hk & Hp & Hc & Hbefore). exists (S k). split; [lia|].
      replace (seed + Z.of_nat (S k))%Z with (seed + 1 + Z.of_nat k)%Z by lia. split; [exact Hp|]. split; [exact Hc|].
      intros [|i] Hi.
      + exists q. rewrite Z.add_0_r. split; [apply HD, Ed|]. split; [exact Ec|]. intros Hcr. apply compliant_true in Hcr. congruence.
      + replace (seed + Z.of_nat (S i))%Z with (seed + 1 + Z.of_nat i)%Z by lia. apply Hbefore. lia. }
  destruct (HG _ _ _ EC) as (k & Hk & Hp & Hc & Hb). cbn [alloc] in H. injection H as H.
  destruct (random_accepted h s std sm (seed + Z.of_nat k) p Hp) as (h2 & o2 & E & Hco & Hzm & HL & _).
  rewrite E in H. injection H as <- <-. exists k, p. auto 10.
Qed.

(** When the half space is added and the smooth profile ends at 1000 m/s, the second
    criterion compares 1000 with 1000: the deepest soil velocity does not matter. *)
Theorem C54_bottom_velocity_not_compared : forall base Vs30 thk vs, length thk = length vs -> last (vs_of base) 0 = 1000 -> base <> [] -> last vs 0 < 1000 ->
  let p := combine thk vs ++ (if Rltb (last vs 0) 1000 then [(0, 1000)] else []) in
  (criteria base Vs30 p <-> exists r30 rz bz, calc_Vs30 p 1 = Ok r30 /\ calc_z1 p = Ok rz /\ calc_z1 base = Ok bz /\
     Rabs (r30 - Vs30) < 25 /\ Rabs (rz - bz) / bz < 20 / 100).
Proof.
  intros base Vs30 thk vs HL Hb Hne Hlt p.
  assert (Hp : last_res (vs_of p) = Ok 1000).
  { unfold p. rewrite (proj2 (Rltb_true _ _) Hlt), vs_of_app. cbn [vs_of map snd]. apply last_res_app. }
  assert (Hbl : last_res (vs_of base) = Ok 1000).
  { rewrite (last_res_ok _ 0) by (destruct base; [congruence|discriminate]). rewrite Hb. reflexivity. }
  unfold criteria. split.
  - intros (r30 & rz & bz & vl & bl & H1 & H2 & H3 & _ & _ & H4 & _ & H5). exists r30, rz, bz. auto.
  - intros (r30 & rz & bz & H1 & H2 & H3 & H4 & H5). exists r30, rz, bz, 1000, 1000. repeat (split; [assumption|]). split; [|exact H5].
    replace (1000 - 1000) with 0 by lra. rewrite Rabs_R0. lra.
Qed.

(** ** Non-vacuity *)
Example C54_instance : exists h1 s h2 o p, svm_init [] 270 (Some 100) CapTrue (9 / 10) false 0 = Some (h1, Ok s) /\
  svm_randomize 0 50 h1 s false false (mksampler (fun _ l => INR (length l) - 1) (fun _ i => INR i / 3 - 1)) 7 = Some (h2, Ok o) /\
  layers_of (o_rows h2 o) = p /\ o_zmax o = 100 /\
  random_profile h1 s false (mksampler (fun _ l => INR (length l) - 1) (fun _ i => INR i / 3 - 1)) 7 p.
Proof.
  destruct (C53_capped_is_settled [] 270 100 CapTrue (9 / 10) false 0 270 1000) as (h1 & s & E & Hz & Hok & _); try reflexivity; try lra.
  { unfold vs0. lra. }
  destruct (proj1 (C54_random_profile 0 50 h1 s false (mksampler (fun _ l => INR (length l) - 1) (fun _ i => INR i / 3 - 1)) 7 Hok ltac:(lra)
    ltac:(rewrite Hz; rewrite INR_IZR_INZ; cbn; lra)) ltac:(lia)) as (h2 & o & p & H1 & H2 & H3 & H4 & H5 & _).
  rewrite Hz in H5. exists h1, s, h2, o, p. auto 10.
Qed.
