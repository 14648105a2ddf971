(** Theorems about profile routines: C01-C06, C12, C66, C67. *)
From Coq Require Import Reals List Bool ZArith Lia Lra Psatz.
From Verif Require Import Base M_profile P_profile.
Import ListNotations.
Open Scope R_scope.

(** ** C01 thickness <-> depth *)

(** Layer tops: same length, first entry 0, k-th entry = sum of thicknesses above. *)
Theorem C01_depth_is_sum_above : forall thk, thk <> [] ->
  exists z, thk2dep thk false = Ok z /\ length z = length thk /\
    forall k, (k < length thk)%nat -> nth k z 0 = rsum (firstn k thk).
Proof.
  intros thk H. exists (z_top_from 0 thk). split; [apply thk2dep_top; auto|].
  split; [apply z_top_length|]. intros k Hk. rewrite z_top_nth by auto. unfold top. lra.
Qed.

Theorem C01_depth_nondecreasing : forall thk z, Forall (fun h => 0 <= h) thk ->
  thk2dep thk false = Ok z ->
  forall i j, (i <= j)%nat -> (j < length z)%nat -> nth i z 0 <= nth j z 0.
Proof.
  intros thk z HF E i j Hij Hj.
  assert (Hne : thk <> []) by (intros ->; discriminate).
  rewrite thk2dep_top in E by auto. injection E as <-. rewrite z_top_length in Hj.
  rewrite !z_top_nth by lia. pose proof (top_mono thk HF i j Hij). lra.
Qed.

(** Mid-points: k-th entry = top of layer k plus half its thickness; one entry
    fewer when the last thickness is 0 (unknown). *)
Theorem C01_midpoints : forall thk h, last_res thk = Ok h ->
  exists z, thk2dep thk true = Ok z /\
    length z = (if Reqb h 0 then length thk - 1 else length thk)%nat /\
    forall k, (k < length z)%nat -> nth k z 0 = rsum (firstn k thk) + nth k thk 0 / 2.
Proof.
  intros thk h E. unfold thk2dep. rewrite E. cbn [bind negb].
  destruct (last_res_inv _ _ E) as [Hne _].
  destruct (Reqb h 0).
  - eexists; split; [reflexivity|].
    assert (HL : forall (l : list R), length (removelast l) = (length l - 1)%nat).
    { intros l. rewrite removelast_firstn_len, firstn_length. lia. }
    rewrite HL, z_mid_length. split; [reflexivity|]. intros k Hk.
    destruct (removelast_nth (z_mid_from 0 thk) k 0) as [-> _]; [rewrite z_mid_length; lia|].
    rewrite z_mid_nth by lia. unfold top. lra.
  - eexists; split; [reflexivity|]. rewrite z_mid_length. split; [reflexivity|]. intros k Hk.
    rewrite z_mid_nth by lia. unfold top. lra.
Qed.

Theorem C01_roundtrip_thk : forall thk, last_res thk = Ok 0 ->
  bind (thk2dep thk false) (fun z => dep2thk z true) = Ok thk.
Proof.
  intros thk E. destruct (last_res_inv _ _ E) as [Hne Hl].
  rewrite thk2dep_top by auto. cbn [bind].
  assert (Ez : exists z', z_top_from 0 thk = 0 :: z').
  { destruct thk; [congruence|]. cbn. eauto. }
  unfold dep2thk. rewrite diffs0_z_top by auto. destruct Ez as [z' ->]. cbn.
  rewrite (proj2 (Reqb_true 0 0) eq_refl). cbn [negb].
  rewrite <- (Hl 0). rewrite <- app_removelast_last; auto.
Qed.

(** Without half space: the round trip forgets exactly the last thickness. *)
Theorem C01_roundtrip_thk_general : forall thk, thk <> [] ->
  bind (thk2dep thk false) (fun z => dep2thk z true) = Ok (removelast thk ++ [0]) /\
  bind (thk2dep thk false) (fun z => dep2thk z false) = Ok (removelast thk).
Proof.
  intros thk Hne. rewrite thk2dep_top by auto. cbn [bind].
  assert (Ez : exists z', z_top_from 0 thk = 0 :: z').
  { destruct thk; [congruence|]. cbn. eauto. }
  unfold dep2thk. rewrite diffs0_z_top by auto. destruct Ez as [z' ->]. cbn.
  rewrite (proj2 (Reqb_true 0 0) eq_refl). cbn [negb]. split; [reflexivity|].
  rewrite removelast_app by discriminate. cbn. rewrite app_nil_r. reflexivity.
Qed.

Theorem C01_roundtrip_depth : forall z h, dep2thk z true = Ok h -> thk2dep h false = Ok z.
Proof.
  intros z h. unfold dep2thk. destruct z as [|z0 z]; [discriminate|]. cbn [get nth_error bind].
  unfold get; cbn [nth_error bind].
  destruct (Reqb_spec z0 0) as [->|]; [|discriminate]. cbn [negb]. intros E. injection E as <-.
  rewrite thk2dep_top.
  - f_equal. apply z_top_diffs0.
  - destruct z; discriminate.
Qed.

Theorem C01_bad_depth_rejected : forall z0 z b, z0 <> 0 -> dep2thk (z0 :: z) b = Err ValueError.
Proof.
  intros. unfold dep2thk, get. cbn. rewrite (proj2 (Reqb_false z0 0)) by auto. reflexivity.
Qed.

Example C01_instance : thk2dep [2; 3; 0] false = Ok [0; 2; 5] /\ dep2thk [0; 2; 5] true = Ok [2; 3; 0].
Proof.
  split; unfold thk2dep, dep2thk, last_res, get; cbn; rdec; cbn; repeat f_equal; lra.
Qed.

(** ** C02 query at depth *)
Theorem C02_query_returns_containing_layer : forall p ds, p <> [] -> Forall (fun d => 0 <= d) ds ->
  exists vs, query_Vs_at_depth p ds = Ok vs /\
    Forall2 (fun d v => exists k, contains (thk_of p) d k /\ nth_error (vs_of p) k = Some v) ds vs.
Proof. exact query_Vs_at_depth_spec. Qed.

Theorem C02_containing_layer_unique : forall thk d k1 k2,
  Forall (fun h => 0 < h) (removelast thk) ->
  contains thk d k1 -> contains thk d k2 -> k1 = k2.
Proof. exact contains_unique. Qed.

(** An interface depth belongs to the layer below it. *)
Theorem C02_interface_belongs_to_lower_layer : forall p k v,
  Forall (fun h => 0 < h) (removelast (thk_of p)) ->
  nth_error (vs_of p) k = Some v ->
  query_Vs_at_depth p [top (thk_of p) k] = Ok [v].
Proof.
  intros p k v Hpos Hk.
  assert (Hlen : length (vs_of p) = length (thk_of p)) by (unfold vs_of, thk_of; rewrite !map_length; auto).
  assert (Hkl : (k < length (thk_of p))%nat) by (rewrite <- Hlen; apply nth_error_Some; congruence).
  assert (Hp : p <> []) by (intros ->; cbn in Hkl; lia).
  assert (Htop : forall j, (j < length (thk_of p))%nat -> 0 <= top (thk_of p) j).
  { intros [|j] Hj; [unfold top; cbn; lra|].
    pose proof (top_strict (thk_of p) 0 (S j) Hpos ltac:(lia) Hj) as Ht. change (top (thk_of p) 0) with 0 in Ht. lra. }
  destruct (query_Vs_at_depth_spec p [top (thk_of p) k] Hp) as (vs & E & HF).
  { constructor; [apply Htop; auto|constructor]. }
  rewrite E. inversion HF as [|d v' ds vs' (k' & Hc & Hv') HF' E1 E2]; subst. inversion HF'; subst.
  assert (k' = k).
  { apply (contains_unique (thk_of p) (top (thk_of p) k)); auto.
    split; [auto|]. split; [lra|]. intros Hlt. apply top_strict; auto. }
  subst k'. congruence.
Qed.

(** The answer for one depth does not depend on the other depths queried. *)
Theorem C02_query_is_elementwise : forall p ds1 ds2 vs, 
  query_Vs_at_depth p (ds1 ++ ds2) = Ok vs ->
  exists vs1 vs2, vs = vs1 ++ vs2 /\ query_Vs_at_depth p ds1 = Ok vs1 /\ query_Vs_at_depth p ds2 = Ok vs2.
Proof.
  intros p ds1 ds2 vs. unfold query_Vs_at_depth. rewrite existsb_app.
  destruct (existsb _ ds1); [discriminate|]. destruct (existsb _ ds2); [discriminate|]. cbn [orb].
  destruct (thk2dep (thk_of p) false) as [dep|]; [|discriminate]. cbn [bind].
  revert vs; induction ds1 as [|d ds1 IH]; intros vs; cbn [app map_res].
  - intros E. exists [], vs. auto.
  - destruct (query_one p dep d) as [v|]; [|discriminate]. cbn [bind].
    destruct (map_res (query_one p dep) (ds1 ++ ds2)) as [w|]; [|discriminate]. cbn [bind].
    intros E; injection E as <-. destruct (IH w eq_refl) as (vs1 & vs2 & -> & E1 & E2).
    exists (v :: vs1), vs2. rewrite E1. auto.
Qed.

Theorem C02_negative_depth_rejected : forall p ds d, In d ds -> d < 0 ->
  query_Vs_at_depth p ds = Err ValueError.
Proof. exact query_negative. Qed.

Example C02_instance : query_Vs_at_depth [(2, 100); (3, 200); (0, 900)] [0; 2; 4; 50] = Ok [100; 200; 200; 900].
Proof.
  unfold query_Vs_at_depth, thk2dep, last_res, query_one, get; cbn. rdec. cbn. rdec. reflexivity.
Qed.

(** ** C03 query for a thickness array *)
Theorem C03_query_given_thk : forall p thk at_midpoint, p <> [] -> thk <> [] ->
  Forall (fun h => 0 <= h) thk ->
  exists vs, query_Vs_given_thk p (ThkArray thk) at_midpoint = Ok (vs, thk) /\
    (forall k, (k < length vs)%nat ->
       exists j, contains (thk_of p)
                   (rsum (firstn k thk) + (if at_midpoint : bool then nth k thk 0 / 2 else 0)) j /\
                 nth_error (vs_of p) j = Some (nth k vs 0)) /\
    length vs = (if (at_midpoint && Reqb (last thk 0%R) 0%R)%bool then length thk - 1 else length thk)%nat.
Proof.
  intros p thk mid Hp Hthk HF. unfold query_Vs_given_thk. cbn [bind].
  assert (Hz : exists z, thk2dep thk mid = Ok z /\
     length z = (if (mid && Reqb (last thk 0%R) 0%R)%bool then length thk - 1 else length thk)%nat /\
     forall k, (k < length z)%nat ->
       nth k z 0 = rsum (firstn k thk) + (if mid then nth k thk 0 / 2 else 0)).
  { destruct mid.
    - apply C01_midpoints. apply last_res_ok; auto.
    - destruct (C01_depth_is_sum_above thk Hthk) as (z & E & L & H). exists z.
      repeat split; auto. intros. rewrite H by lia. lra. }
  destruct Hz as (z & Ez & Lz & Hz). rewrite Ez. cbn [bind].
  assert (Hzpos : Forall (fun d => 0 <= d) z).
  { apply Forall_forall. intros d Hd. apply (In_nth _ _ 0) in Hd as (k & Hk & <-).
    rewrite Hz by auto.
    assert (0 <= rsum (firstn k thk)).
    { pose proof (top_mono thk HF 0 k ltac:(lia)) as Ht. unfold top in Ht. cbn in Ht. exact Ht. }
    assert (0 <= nth k thk 0).
    { destruct (nth_in_or_default k thk 0) as [Hin| ->]; [|lra].
      rewrite Forall_forall in HF. apply HF; auto. }
    destruct mid; lra. }
  destruct (query_Vs_at_depth_spec p z Hp Hzpos) as (vs & E & HF2).
  rewrite E. cbn [bind]. exists vs. split; [reflexivity|].
  assert (L : length z = length vs).
  { clear -HF2. induction HF2; cbn; auto. }
  split; [|lia].
  intros k Hk. rewrite <- Hz by lia.
  clear -HF2 Hk. revert k Hk; induction HF2 as [|d v ds vs (j & Hj) _ IH]; cbn; intros k Hk; [lia|].
  destruct k as [|k]; [exists j; exact Hj|]. apply IH; lia.
Qed.

Theorem C03_scalar_needs_layer_count : forall p h n mid,
  query_Vs_given_thk p (ThkScalar h n) mid =
  match n with
  | None => Err TypeError
  | Some z => if Z.leb z 0 then Err ValueError
              else query_Vs_given_thk p (ThkArray (repeat h (Z.to_nat z))) mid
  end.
Proof. intros p h [n|] mid; unfold query_Vs_given_thk; [|reflexivity]. destruct (Z.leb n 0); reflexivity. Qed.

(** Mid-point query of a profile-like array ending with a half space: the two
    returned arrays have different lengths. *)
Theorem C03_midpoint_halfspace_length_mismatch : forall p thk, p <> [] -> thk <> [] ->
  Forall (fun h => 0 <= h) thk -> last thk 0 = 0 ->
  exists vs, query_Vs_given_thk p (ThkArray thk) true = Ok (vs, thk) /\
    length vs = (length thk - 1)%nat /\ length vs <> length thk.
Proof.
  intros p thk Hp Hthk HF HL. destruct (C03_query_given_thk p thk true Hp Hthk HF) as (vs & E & _ & L).
  rewrite HL, (proj2 (Reqb_true 0 0) eq_refl) in L. cbn [andb] in L. exists vs. split; [exact E|]. split; [exact L|].
  destruct thk; [congruence|]. cbn in *. lia.
Qed.

Example C03_instance : query_Vs_given_thk [(2, 100); (3, 200); (0, 900)] (ThkArray [3; 3; 3]) true
  = Ok ([100; 200; 900], [3; 3; 3]).
Proof.
  unfold query_Vs_given_thk, query_Vs_at_depth, thk2dep, last_res, query_one, get; cbn. rdec. cbn. rdec.
  cbn. rdec. reflexivity.
Qed.

(** ** C04 VsZ *)

(** [tt_ext p v Z] is the travel time through the material above [Z], the last
    velocity [v] being continued below the profile. *)
Theorem C04_VsZ_is_travel_time_average : forall p Z, good_profile p -> 0 < Z ->
  exists v, nth_error (vs_of p) (length p - 1) = Some v /\
    calc_VsZ p Z 1 = Ok (Z / tt_ext p v Z) /\ 0 < tt_ext p v Z.
Proof.
  intros p Z Hg HZ. destruct (calc_VsZ_1 p Z Hg HZ) as (v & Hv & E).
  exists v. repeat split; auto. apply tt_ext_pos; auto.
Qed.

Theorem C04_VsZ_option2 : forall p Z, good_profile p -> 0 < Z ->
  calc_VsZ p Z 2 = Ok (Rmin (rsum (thk_of p)) Z / travel_time p 0 Z).
Proof. exact calc_VsZ_2. Qed.

Theorem C04_VsZ_between_min_and_max : forall p Z lo hi, good_profile p -> 0 < Z -> 0 < lo ->
  (forall k v, nth_error (vs_of p) k = Some v -> 0 + top (thk_of p) k < Z -> lo <= v <= hi) ->
  exists x, calc_VsZ p Z 1 = Ok x /\ lo <= x <= hi.
Proof. exact VsZ_bounds. Qed.

Theorem C04_VsZ_uniform : forall p Z v, good_profile p -> 0 < Z ->
  (forall w, In w (vs_of p) -> w = v) -> calc_VsZ p Z 1 = Ok v.
Proof.
  intros p Z v Hg HZ Hu.
  assert (Hv : 0 < v).
  { destruct Hg as [Hne HF]. destruct p as [|[h w] p]; [congruence|].
    rewrite <- (Hu w) by (left; reflexivity). inversion HF; subst; tauto. }
  destruct (VsZ_bounds p Z v v Hg HZ Hv) as (x & E & H).
  - intros k w Hk _. rewrite (Hu w) by (eapply nth_error_In; eauto). lra.
  - rewrite E. f_equal. lra.
Qed.

Theorem C04_VsZ_monotone : forall p p' Z, good_profile p -> good_profile p' -> 0 < Z ->
  Forall2 (fun l l' => fst l = fst l' /\ snd l <= snd l') p p' ->
  exists x x', calc_VsZ p Z 1 = Ok x /\ calc_VsZ p' Z 1 = Ok x' /\ x <= x'.
Proof. exact VsZ_monotone. Qed.

Theorem C04_VsZ_ignores_material_below : forall p q Z, good_profile p -> good_profile (p ++ q) ->
  0 < Z -> Z <= rsum (thk_of p) -> calc_VsZ (p ++ q) Z 1 = calc_VsZ p Z 1.
Proof. exact VsZ_local. Qed.

Theorem C04_VsZ_bad_option : forall p Z o, o <> 1%nat -> o <> 2%nat ->
  calc_VsZ p Z o = Err UnboundLocalError.
Proof. intros p Z [|[|[|o]]]; cbn; congruence. Qed.

Example C04_instance : calc_Vs30 [(10, 200); (0, 400)] 1 = Ok 300.
Proof.
  unfold calc_Vs30, calc_VsZ, last_res; cbn. rdec. cbn. rdec. f_equal. lra.
Qed.

(** ** C05 basin depth *)
Theorem C05_basin_depth : forall p b, p <> [] ->
  exists z, calc_basin_depth p b = Ok z /\
  ((exists k v, nth_error (vs_of p) k = Some v /\ b <= v /\ z = rsum (firstn k (thk_of p)) /\
      forall j w, (j < k)%nat -> nth_error (vs_of p) j = Some w -> w < b) \/
   ((forall j w, nth_error (vs_of p) j = Some w -> w < b) /\ z = rsum (thk_of p))).
Proof.
  intros p b Hp. unfold calc_basin_depth.
  rewrite thk2dep_top by (destruct p; [congruence|discriminate]). cbn [bind].
  eexists; split; [reflexivity|].
  destruct (basin_scan_spec p 0 b (rsum (thk_of p))) as [(k & v & Hk & Hv & E & Hj)|H].
  - left. exists k, v. rewrite E. unfold top. repeat split; auto. lra.
  - right; exact H.
Qed.

(** Above the basin depth every layer is slower than the bedrock velocity. *)
Theorem C05_nothing_fast_above : forall p b z k v, Forall (fun h => 0 <= h) (thk_of p) ->
  calc_basin_depth p b = Ok z -> nth_error (vs_of p) k = Some v ->
  rsum (firstn k (thk_of p)) < z -> v < b.
Proof.
  intros p b z k v HF E Hk Hlt.
  assert (Hp : p <> []) by (intros ->; destruct k; discriminate).
  destruct (C05_basin_depth p b Hp) as (z' & E' & H). assert (z' = z) by congruence. subst z'.
  destruct H as [(k0 & v0 & H0 & Hv0 & -> & Hj)|[Hall _]]; [|eauto].
  destruct (Nat.lt_ge_cases k k0) as [Hlt'|Hge]; [eauto|].
  pose proof (top_mono (thk_of p) HF k0 k Hge). unfold top in *. lra.
Qed.

Theorem C05_basin_depth_monotone : forall p b b' z z', Forall (fun h => 0 <= h) (thk_of p) ->
  b <= b' -> calc_basin_depth p b = Ok z -> calc_basin_depth p b' = Ok z' -> z <= z'.
Proof.
  intros p b b' z z' HF Hb E E'.
  assert (Hp : p <> []) by (intros ->; discriminate).
  destruct (C05_basin_depth p b Hp) as (y & Ey & H). assert (y = z) by congruence. subst y.
  destruct (C05_basin_depth p b' Hp) as (y & Ey' & H'). assert (y = z') by congruence. subst y.
  pose proof (top_mono (thk_of p) HF) as Hm.
  assert (Hlen : length (vs_of p) = length (thk_of p)) by (unfold vs_of, thk_of; rewrite !map_length; auto).
  destruct H as [(k & v & Hk & Hv & -> & Hj)|[Hall ->]];
  destruct H' as [(k' & v' & Hk' & Hv' & -> & Hj')|[Hall' ->]].
  - destruct (Nat.le_gt_cases k k') as [Hle|Hgt]; [apply (Hm k k' Hle)|].
    specialize (Hj k' v' Hgt Hk'). lra.
  - rewrite <- (top_all (thk_of p)). apply (Hm k (length (thk_of p))). rewrite <- Hlen.
    apply Nat.lt_le_incl, nth_error_Some; congruence.
  - specialize (Hall k' v' Hk'). lra.
  - lra.
Qed.

(** z1 is the depth of the first layer at 1000 m/s or faster. *)
Theorem C05_z1 : forall p, p <> [] ->
  exists z, calc_z1 p = Ok z /\
  ((exists k v, nth_error (vs_of p) k = Some v /\ 1000 <= v /\ z = rsum (firstn k (thk_of p)) /\
      forall j w, (j < k)%nat -> nth_error (vs_of p) j = Some w -> w < 1000) \/
   ((forall j w, nth_error (vs_of p) j = Some w -> w < 1000) /\ z = rsum (thk_of p))).
Proof. intros p Hp. exact (C05_basin_depth p 1000 Hp). Qed.

Example C05_instance : calc_z1 [(5, 300); (7, 600); (0, 1200)] = Ok 12.
Proof. unfold calc_z1, calc_basin_depth, thk2dep, last_res; cbn. rdec. f_equal. lra. Qed.

(** ** C06 stratify *)

(** Every layer becomes a non-empty group of sub-layers carrying its Vs and its
    other columns, each at most Vs/225 thick, as few as possible, whose total
    thickness is at least that of the layer and exceeds it by less than Vs/225. *)
Theorem C06_stratify_refines : forall p lst,
  last_res p = Ok lst -> r_h lst = 0 ->
  Forall (fun r => 0 < r_h r /\ 0 < r_vs r) (removelast p) ->
  exists groups, stratify p = Ok (concat groups ++ [mkrow 0 (r_vs lst) (r_rest lst)]) /\
    Forall2 subdivides (removelast p) groups.
Proof.
  intros p lst E Hh HF. unfold stratify. rewrite E. cbn [bind].
  rewrite (proj2 (Reqb_true _ _) Hh).
  destruct (flat_map_refines _ HF) as (groups & HG & ->). eauto.
Qed.

Theorem C06_stratify_refines_no_halfspace : forall p lst,
  last_res p = Ok lst -> r_h lst <> 0 ->
  Forall (fun r => 0 < r_h r /\ 0 < r_vs r) p ->
  exists groups, stratify p = Ok (concat groups) /\ Forall2 subdivides p groups.
Proof.
  intros p lst E Hh HF. unfold stratify. rewrite E. cbn [bind].
  rewrite (proj2 (Reqb_false _ _) Hh).
  destruct (flat_map_refines _ HF) as (groups & HG & ->). eauto.
Qed.

(** Exact total when the layer needs no division or its thickness is not within
    the allclose tolerance of a multiple of Vs/225. *)
Theorem C06_total_thickness_kept : forall r, 0 < r_h r -> 0 < r_vs r ->
  (r_h r <= r_vs r / 225 \/ ~ near_integer (r_h r / (r_vs r / 225))) ->
  total_h (sublayers r) = r_h r.
Proof. intros r H1 H2 H. apply sublayers_spec; auto. Qed.

(** Finding: for a thickness slightly above a multiple of Vs/225 a whole extra
    sub-layer is added.  A layer of 3.00001 m at 225 m/s becomes 4 m. *)
Theorem C06_total_thickness_refuted :
  exists r, 0 < r_h r /\ 0 < r_vs r /\ r_h r = 300001 / 100000 /\
    total_h (sublayers r) = 4 /\ total_h (sublayers r) <> r_h r.
Proof.
  exists (mkrow (300001/100000) 225 []). cbn [r_h r_vs].
  destruct (sublayers_spec (mkrow (300001/100000) 225 [])) as (_ & _ & H); cbn [r_h r_vs] in *; try lra.
  assert (Hn : near_integer (300001 / 100000 / (225 / 225))).
  { exists 3%Z. replace (300001 / 100000 / (225 / 225)) with (300001/100000) by field.
    rewrite Rabs_left1 by lra. rewrite Rabs_right by lra. lra. }
  specialize (H ltac:(lra) Hn).
  assert (Ec : ceil (300001 / 100000 / (225 / 225)) = 4%Z).
  { replace (300001 / 100000 / (225 / 225)) with (300001/100000) by field.
    pose proof (ceil_spec (300001/100000)) as Hc.
    assert (H3 : (3 < ceil (300001/100000) < 5)%Z).
    { split; apply lt_IZR; lra. }
    lia. }
  rewrite Ec in H. repeat split; try lra.
Qed.

Example C06_instance : exists g, stratify [mkrow 3 225 [1; 2; 3]; mkrow 0 800 [4; 5; 6]] = Ok g /\
  length g = 4%nat /\ total_h g = 3.
Proof.
  assert (Hq : 3 / (225 / 225) = 3) by field.
  assert (Ec : ceil 3 = 3%Z).
  { pose proof (ceil_spec 3) as Hc. assert (H3 : (2 < ceil 3 < 4)%Z) by (split; apply lt_IZR; lra). lia. }
  assert (Hr : allclose_round 3 = true).
  { apply allclose_round_spec. exists 3%Z. rewrite Rabs_right by lra. rewrite Rabs_right by lra. lra. }
  unfold stratify, last_res. cbn [rev app bind r_h r_vs r_rest removelast flat_map].
  rdec. unfold sublayers. cbn [r_h r_vs r_rest]. rdec. rewrite Hq, Ec, Hr.
  eexists; split; [reflexivity|]. split; [reflexivity|].
  unfold total_h. change (Z.to_nat 3) with 3%nat. cbn [repeat app map rsum r_h]. lra.
Qed.

(** ** C12 damping and density *)
Theorem C12_lengths : forall Vs f, length (fst (get_xi_rho Vs f)) = length Vs /\
  length (snd (get_xi_rho Vs f)) = length Vs.
Proof. intros Vs [|[|[|[|f]]]]; cbn; rewrite !map_length; auto. Qed.

(** Formula 1: step values and sides of the thresholds. *)
Theorem C12_formula_1 : forall v,
  (v < 250 -> xi_formula_1 v = 5/100) /\ (250 <= v < 750 -> xi_formula_1 v = 2/100) /\
  (750 <= v -> xi_formula_1 v = 1/100).
Proof. intros v. unfold xi_formula_1. repeat split; intros; rdec; reflexivity. Qed.

Theorem C12_density_rule : forall v,
  (v < 200 -> rho_rule v = 1600) /\ (200 <= v < 800 -> rho_rule v = 1800) /\ (800 <= v -> rho_rule v = 2000).
Proof. intros v. unfold rho_rule. repeat split; intros; rdec; reflexivity. Qed.

(** Formulas 1, 2 and 3 give positive damping for positive velocities. *)
Theorem C12_damping_positive : forall Vs f, f = 1%nat \/ f = 2%nat \/ f = 3%nat ->
  Forall (fun v => 0 < v) Vs -> Forall (fun x => 0 < x) (fst (get_xi_rho Vs f)).
Proof.
  intros Vs f Hf HV.
  assert (HP : forall q, 0 < q -> 0 < 1 / (2 * q)) by (intros; apply Rdiv_lt_0_compat; lra).
  destruct Hf as [->|[->| ->]]; cbn; apply Forall_map; eapply Forall_impl; try exact HV; cbn; intros v Hv.
  - unfold xi_formula_1. destruct (Rltb_spec v 250), (Rltb_spec v 750); lra.
  - apply HP. unfold Qs_formula_2.
    set (x := v / 1000).
    assert (Hpoly : 0 < 105/10 - 16 * x + 153 * x^2 - 103 * x^3 + 347/10 * x^4 - 529/100 * x^5 + 31/100 * x^6).
    { assert (H1 : 0 < 105/10 - 16 * x + 7 * x^2).
      { replace (105/10 - 16 * x + 7 * x^2) with (7 * (x - 8/7)^2 + (105/10 - 64/7)) by field.
        pose proof (pow2_ge_0 (x - 8/7)). lra. }
      assert (H2 : 0 <= 146 - 103 * x + 347/10 * x^2 - 529/100 * x^3 + 31/100 * x^4).
      { replace (146 - 103 * x + 347/10 * x^2 - 529/100 * x^3 + 31/100 * x^4)
          with (31/100 * (x^2 - 529/62 * x + 12)^2
                + ((347/10 - 31/100 * (529/62)^2 - 744/100) * x^2 - (103 - 529/100 * 12) * x
                   + (146 - 31/100 * 144))) by field.
        pose proof (pow2_ge_0 (x^2 - 529/62 * x + 12)).
        nra. }
      pose proof (pow2_ge_0 x).
      replace (105/10 - 16 * x + 153 * x^2 - 103 * x^3 + 347/10 * x^4 - 529/100 * x^5 + 31/100 * x^6)
        with ((105/10 - 16 * x + 7 * x^2)
              + x^2 * (146 - 103 * x + 347/10 * x^2 - 529/100 * x^3 + 31/100 * x^4)) by ring.
      assert (0 <= x^2 * (146 - 103 * x + 347/10 * x^2 - 529/100 * x^3 + 31/100 * x^4))
        by (apply Rmult_le_pos; lra).
      lra. }
    destruct (Reqb_spec (105/10 - 16 * x + 153 * x^2 - 103 * x^3 + 347/10 * x^4 - 529/100 * x^5 + 31/100 * x^6) 0); lra.
  - apply HP. apply xi3_eq; auto.
Qed.

(** Formulas 1 and 3: a faster layer never gets more damping, and a denser rule. *)
Theorem C12_damping_antitone : forall f v w x y rx ry, f = 1%nat \/ f = 3%nat -> 0 < v -> v <= w ->
  get_xi_rho [v; w] f = ([x; y], [rx; ry]) -> y <= x /\ rx <= ry.
Proof.
  intros f v w x y rx ry Hf Hv Hvw E.
  assert (Hr : rho_rule v <= rho_rule w).
  { unfold rho_rule. destruct (Rltb_spec v 200), (Rltb_spec w 200), (Rltb_spec v 800), (Rltb_spec w 800); lra. }
  destruct Hf as [-> | ->]; cbn in E; injection E as <- <- <- <-; (split; [|exact Hr]).
  - unfold xi_formula_1. destruct (Rltb_spec v 250), (Rltb_spec w 250), (Rltb_spec v 750), (Rltb_spec w 750); lra.
  - apply inv2_antitone; [apply xi3_eq; auto|apply Qs3_monotone; auto].
Qed.

(** The default formula exceeds 100 % damping exactly below 25/3 m/s. *)
Theorem C12_default_damping_upper_bound : forall v, 0 < v ->
  (1 / (2 * Qs_formula_3 v) <= 1 <-> 25 / 3 <= v).
Proof.
  intros v Hv. pose proof (xi3_eq v Hv) as HQ.
  split; intros H.
  - assert (1 <= 2 * Qs_formula_3 v).
    { apply (Rmult_le_compat_r (2 * Qs_formula_3 v)) in H; [|lra].
      unfold Rdiv in H. rewrite Rmult_assoc, Rinv_l in H; lra. }
    revert H0. unfold Qs_formula_3. destruct (Rleb_spec v 1000), (Rleb_spec v 2000); lra.
  - assert (1 <= 2 * Qs_formula_3 v).
    { unfold Qs_formula_3. destruct (Rleb_spec v 1000), (Rleb_spec v 2000); lra. }
    apply (Rmult_le_reg_r (2 * Qs_formula_3 v)); [lra|].
    unfold Rdiv. rewrite Rmult_assoc, Rinv_l; lra.
Qed.

(** An unknown formula number is accepted silently and gives zero damping. *)
Theorem C12_unknown_formula_gives_zero : forall Vs f, (f = 0 \/ 4 <= f)%nat ->
  fst (get_xi_rho Vs f) = repeat 0 (length Vs).
Proof.
  intros Vs f Hf. assert (E : fst (get_xi_rho Vs f) = map (fun _ => 0) Vs).
  { destruct f as [|[|[|[|f]]]]; try reflexivity; lia. }
  rewrite E. clear E. induction Vs; cbn; congruence.
Qed.

Example C12_instance : get_xi_rho [100; 500] 3 = ([1/12; 1/60], [1600; 1800]).
Proof.
  unfold get_xi_rho, Qs_formula_3, rho_rule; cbn. rdec.
  f_equal. repeat (f_equal; try lra).
Qed.

(** ** C66 plotted staircase *)
Theorem C66_staircase : forall thk vs zmax, thk <> [] -> length thk = length vs ->
  exists x y, gen_profile_plot_array thk vs zmax = Ok (x, y) /\
    length x = (2 * length vs)%nat /\ length y = (2 * length vs)%nat /\
    (forall k, (k < length vs)%nat ->
       nth (2 * k) x 0 = nth k vs 0 /\ nth (2 * k + 1) x 0 = nth k vs 0 /\
       nth (2 * k) y 0 = rsum (firstn k thk) /\
       nth (2 * k + 1) y 0 = (if Nat.eqb (S k) (length vs) then zmax else rsum (firstn (S k) thk))).
Proof.
  intros thk vs zmax Hne HL. unfold gen_profile_plot_array.
  rewrite thk2dep_top by auto. cbn [bind].
  set (N := length vs) in *.
  assert (E1 : map_res (fun i => get vs (i / 2)) (seq 0 (2 * N)) =
               Ok (map (fun i => nth (i / 2) vs 0) (seq 0 (2 * N)))).
  { apply map_res_ok. intros i Hi. apply in_seq in Hi. apply get_ok. apply Nat.div_lt_upper_bound; lia. }
  assert (E2 : map_res (fun i => if Nat.ltb (i + 1) (2 * N) then get (z_top_from 0 thk) ((i + 1) / 2) else Ok zmax)
                 (seq 0 (2 * N)) =
               Ok (map (fun i => if Nat.ltb (i + 1) (2 * N) then nth ((i + 1) / 2) (z_top_from 0 thk) 0 else zmax)
                 (seq 0 (2 * N)))).
  { apply map_res_ok. intros i Hi. apply in_seq in Hi. destruct (Nat.ltb_spec (i + 1) (2 * N)); [|reflexivity].
    apply get_ok. rewrite z_top_length. apply Nat.div_lt_upper_bound; lia. }
  rewrite E1. cbn [bind]. rewrite E2. cbn [bind].
  do 2 eexists. split; [reflexivity|]. rewrite !map_length, seq_length. split; [reflexivity|]. split; [reflexivity|].
  intros k Hk.
  assert (Hnth : forall (f : nat -> R) i, (i < 2 * N)%nat -> nth i (map f (seq 0 (2 * N))) 0 = f i).
  { intros f i Hi. rewrite (nth_indep _ 0 (f 0%nat)) by (rewrite map_length, seq_length; auto).
    rewrite map_nth, seq_nth by auto. reflexivity. }
  rewrite !Hnth by lia.
  assert (D1 : (2 * k / 2 = k)%nat) by (rewrite Nat.mul_comm; apply Nat.div_mul; lia).
  assert (D2 : ((2 * k + 1) / 2 = k)%nat) by (symmetry; apply (Nat.div_unique _ 2 k 1); lia).
  assert (D3 : ((2 * k + 1 + 1) / 2 = S k)%nat) by (symmetry; apply (Nat.div_unique _ 2 (S k) 0); lia).
  rewrite D1, D2, D3. split; [reflexivity|]. split; [reflexivity|].
  rewrite (proj2 (Nat.ltb_lt (2 * k + 1) (2 * N))) by lia.
  split; [rewrite z_top_nth by lia; unfold top; lra|].
  destruct (Nat.eqb_spec (S k) N).
  - rewrite (proj2 (Nat.ltb_ge (2 * k + 1 + 1) (2 * N))) by lia. reflexivity.
  - rewrite (proj2 (Nat.ltb_lt (2 * k + 1 + 1) (2 * N))) by lia.
    rewrite z_top_nth by lia. unfold top. lra.
Qed.

Example C66_instance : gen_profile_plot_array [2; 0] [100; 300] 4 = Ok ([100; 100; 300; 300], [0; 2; 2; 4]).
Proof. unfold gen_profile_plot_array, thk2dep, last_res, get; cbn. repeat f_equal; lra. Qed.

(** ** C67 z1 estimated from Vs30 *)
Theorem C67_z1_from_Vs30 : forall v, 0 <= v ->
  0 < calc_z1_from_Vs30 v <= 140511 / 1000.
Proof.
  intros v Hv. unfold calc_z1_from_Vs30. split.
  - apply Rmult_lt_0_compat; [lra|apply exp_pos].
  - rewrite <- (Rmult_1_r (140511 / 1000)) at 2. apply Rmult_le_compat_l; [lra|].
    rewrite <- exp_0. destruct (Req_dec v 0) as [->|]; [right; f_equal; lra|].
    left. apply exp_increasing. nra.
Qed.

Theorem C67_z1_from_Vs30_decreasing : forall v w, v < w -> calc_z1_from_Vs30 w < calc_z1_from_Vs30 v.
Proof.
  intros v w H. unfold calc_z1_from_Vs30. apply Rmult_lt_compat_l; [lra|]. apply exp_increasing. lra.
Qed.

Example C67_instance : calc_z1_from_Vs30 0 = 140511 / 1000.
Proof. unfold calc_z1_from_Vs30. rewrite Rmult_0_r, exp_0. lra. Qed.
