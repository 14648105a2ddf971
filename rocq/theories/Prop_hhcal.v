(** Theorems about the HH calibration (C47, C48, C49, C73). *)
From Coq Require Import Reals List Bool ZArith Lia Lra.
From Verif Require Import Base M_generic P_generic M_profile P_profile M_soil P_soil Prop_soil M_motion M_interp P_interp M_hhcal P_hhcal.
Import ListNotations.
Open Scope R_scope.

Lemma In_firstn {A} n (l : list A) x : In x (firstn n l) -> In x l.
Proof. intros H. rewrite <- (firstn_skipn n l). apply in_or_app. left. exact H. Qed.

Lemma rpower_1 y : Rpower 1 y = 1.
Proof. unfold Rpower. rewrite ln_1, Rmult_0_r. apply exp_0. Qed.

Lemma nth_map_at {A B} (f : A -> B) d0 d l k : (k < length l)%nat -> nth k (map f l) d = f (nth k l d0).
Proof. intros H. rewrite (nth_indep _ d (f d0)) by (rewrite map_length; exact H). apply map_nth. Qed.

(** ** C47 soil quantities *)

(** Vertical stress at mid-layer: weight of the layers above plus half of the
    layer, hence positive and strictly increasing with depth. *)
Theorem C47_vertical_stress : forall h rho hl, length h = length rho -> last_res h = Ok hl -> hl <> 0 ->
  exists s, calc_vertical_stress h rho = Ok (h, s) /\ length s = length h /\
    (forall k, (k < length h)%nat -> nth k s 0 = weight_above h rho k + nth k rho 0 * grav * nth k h 0 / 2) /\
    (Forall (fun x => 0 < x) h -> Forall (fun x => 0 < x) rho ->
       (forall k, (k < length h)%nat -> 0 < nth k s 0) /\ (forall k, (S k < length h)%nat -> nth k s 0 < nth (S k) s 0)).
Proof.
  intros h rho hl HL Hlast Hnz. unfold calc_vertical_stress. rewrite Hlast. cbn [bind].
  rewrite (proj2 (Reqb_false hl 0) Hnz). replace (Nat.leb (length h) (length rho)) with true by (symmetry; apply Nat.leb_le; lia).
  eexists. split; [reflexivity|]. rewrite stress_scan_length, combine_length. split; [lia|].
  assert (Hk : forall k, (k < length h)%nat -> nth k (stress_scan 0 0 (combine h rho)) 0 = weight_above h rho k + nth k rho 0 * grav * nth k h 0 / 2).
  { intros k Hk. rewrite stress_scan_nth by (rewrite combine_length; lia). rewrite nth_combine0 by exact HL. cbn [fst snd]. unfold weight_above. lra. }
  split; [exact Hk|]. intros Hh Hr.
  assert (Hstep : forall k, (k < length h)%nat -> weight_above h rho (S k) = weight_above h rho k + nth k rho 0 * grav * nth k h 0).
  { intros k Hkl. unfold weight_above. replace (S k) with (k + 1)%nat by lia.
    rewrite <- (firstn_skipn k (combine h rho)) at 1. rewrite firstn_app, firstn_firstn.
    rewrite firstn_length_le by (rewrite combine_length; lia). replace (Nat.min (k + 1) k) with k by lia. replace (k + 1 - k)%nat with 1%nat by lia.
    rewrite map_app, rsum_app. f_equal.
    destruct (skipn k (combine h rho)) as [|q t] eqn:Es.
    - exfalso. apply (f_equal (@length _)) in Es. rewrite skipn_length, combine_length in Es. cbn in Es. lia.
    - cbn [firstn map rsum]. assert (Eq : nth k (combine h rho) (0, 0) = q).
      { rewrite <- (firstn_skipn k (combine h rho)), Es, app_nth2 by (rewrite firstn_length; lia).
        rewrite firstn_length_le by (rewrite combine_length; lia). rewrite Nat.sub_diag. reflexivity. }
      rewrite nth_combine0 in Eq by exact HL. subst q. cbn [fst snd]. lra. }
  assert (Hpos : forall k, (k < length h)%nat -> 0 < nth k rho 0 * grav * nth k h 0).
  { intros k Hkl. pose proof (proj1 (Forall_forall _ _) Hh _ (nth_In h 0 Hkl)). assert (Hkr : (k < length rho)%nat) by lia. pose proof (proj1 (Forall_forall _ _) Hr _ (nth_In rho 0 Hkr)).
    apply Rmult_lt_0_compat; [apply Rmult_lt_0_compat|]; [assumption|unfold grav; lra|assumption]. }
  assert (Hw : forall k, (k <= length h)%nat -> 0 <= weight_above h rho k).
  { induction k as [|k IH]; intros Hkl; [unfold weight_above; cbn; lra|]. rewrite Hstep by lia. specialize (IH ltac:(lia)). specialize (Hpos k ltac:(lia)). lra. }
  split; intros k Hkl.
  - rewrite Hk by exact Hkl. specialize (Hw k ltac:(lia)). specialize (Hpos k Hkl). lra.
  - rewrite !Hk, Hstep by lia. pose proof (Hpos k ltac:(lia)). pose proof (Hpos (S k) ltac:(lia)). lra.
Qed.

(** A zero last thickness is rewritten to 1 m in the caller's array. *)
Theorem C47_zero_thickness_rewritten : forall h rho, (length h < length rho)%nat ->
  exists s, calc_vertical_stress (h ++ [0]) rho = Ok (h ++ [1], s) /\ length s = S (length h).
Proof.
  intros h rho HL. unfold calc_vertical_stress. rewrite last_res_app. cbn [bind].
  rewrite (proj2 (Reqb_true 0 0) eq_refl), removelast_app1, !app_length. cbn [length].
  replace (Nat.leb (length h + 1) (length rho)) with true by (symmetry; apply Nat.leb_le; lia).
  eexists. split; [reflexivity|]. rewrite stress_scan_length, combine_length, app_length. cbn. lia.
Qed.

(** Density: never below 1650; at most 2628.7 for mid-depths of at least
    10^-1.095 m (8.04 cm); one density per layer. *)
Theorem C47_density : forall h Vs hl, last_res h = Ok hl -> hl <> 0 -> length h = length Vs ->
  exists rho, calc_rho h Vs = Ok rho /\ length rho = length Vs /\ Forall (fun r => 1650 <= r) rho /\
    (Forall (fun v => 0 < v) Vs -> Forall (fun x => 0 < x) h -> Rpower 10 (- (1095/1000)) <= nth 0 h 0 / 2 ->
     Forall (fun r => r <= 1000 * (1 + 1000/614)) rho).
Proof.
  intros h Vs hl Hl Hnz HL. unfold calc_rho, thk2dep. rewrite Hl. cbn [bind negb].
  rewrite (proj2 (Reqb_false hl 0) Hnz). cbn [bind]. rewrite z_mid_length, HL, Nat.eqb_refl.
  eexists. split; [reflexivity|].
  assert (HLz : length (z_mid_from 0 h) = length Vs) by (rewrite z_mid_length; exact HL).
  split; [rewrite zipw_length by exact HLz; exact HLz|]. split.
  - apply Forall_forall. intros r Hr. unfold zipw in Hr. apply in_map_iff in Hr as (q & <- & _). apply rho_at_ge.
  - intros HV Hh H0. apply Forall_forall. intros r Hr. apply (In_nth _ _ 0) in Hr as (k & Hk & <-). rewrite zipw_length in Hk by exact HLz.
    rewrite (zipw_nth _ _ _ k 0 0) by (try exact HLz; exact Hk). apply rho_at_le.
    + apply (proj1 (Forall_forall _ _) HV). apply nth_In. lia.
    + rewrite z_mid_nth by lia. destruct h as [|h0 h']; [cbn in Hl; discriminate|]. cbn [nth] in H0.
      eapply Rle_trans; [exact H0|]. unfold top. destruct k as [|k]; [cbn; lra|].
      cbn [firstn rsum]. assert (0 <= rsum (firstn k h')).
      { apply rsum_nonneg. apply Forall_forall. intros x Hx. inversion Hh as [|? ? _ Hh']; subst. apply Rlt_le, (proj1 (Forall_forall _ _) Hh'). eapply In_firstn. exact Hx. }
      assert (0 < nth (S k) (h0 :: h') 0) by (apply (proj1 (Forall_forall _ _) Hh); apply nth_In; lia).
      assert (0 < h0) by (inversion Hh; assumption). lra.
Qed.

(** For a thin top layer the density can be arbitrarily large (finding). *)
Theorem C47_density_unbounded_refuted : forall B, exists v rho, 0 < v /\ rho_den (1/100) v <> 0 /\
  calc_rho [2/100] [v] = Ok [rho] /\ B < rho.
Proof.
  intros B. set (e := / (Rabs B + 10)). pose proof (Rabs_pos B) as HB.
  assert (He : 0 < e) by (apply Rinv_0_lt_compat; lra).
  assert (He' : e <= 1/10) by (unfold e; replace (1/10) with (/ 10) by lra; apply Rinv_le_contravar; lra).
  set (v := 531235/10000 / (614/1000 - e)). assert (Hv : 0 < v) by (apply Rdiv_lt_0_compat; lra).
  assert (Hlog : log10 (1/100) = -2).
  { rewrite <- (log10_pow10 (-2)). f_equal. replace (-2) with (- (2)) by lra. rewrite Rpower_Ropp.
    assert (E : Rpower 10 2 = 100) by (change 2 with (INR 2); rewrite Rpower_pow by lra; cbn; lra). rewrite E. lra. }
  assert (Hd : rho_den (1/100) v = e).
  { unfold rho_den. rewrite Hlog. unfold v. field. lra. }
  exists v, (rho_at (1/100) v). split; [exact Hv|]. split; [lra|]. split.
  - unfold calc_rho, thk2dep, last_res. cbn [rev app bind negb]. rewrite (proj2 (Reqb_false (2/100) 0)) by lra. cbn [bind z_mid_from length Nat.eqb].
    unfold zipw. cbn [combine map]. replace (0 + 2 / 100 / 2) with (1 / 100) by lra. reflexivity.
  - unfold rho_at. cbv zeta. rewrite (proj2 (Reqb_false (1/100) 0)) by lra. rewrite Hd.
    pose proof (Rmax_r (165/100) (1 + 1 / e)) as H. replace (1 / e) with (Rabs B + 10) in H by (unfold e; field; lra).
    pose proof (Rle_abs B). replace (1 / e) with (Rabs B + 10) by (unfold e; field; lra). nra.
Qed.

Theorem C47_Gmax : forall Vs rho k, length Vs = length rho -> (k < length Vs)%nat ->
  length (calc_Gmax Vs rho) = length Vs /\ nth k (calc_Gmax Vs rho) 0 = nth k rho 0 * nth k Vs 0 ^ 2.
Proof.
  intros Vs rho k HL Hk. unfold calc_Gmax. split; [apply zipw_length; exact HL|]. rewrite (zipw_nth _ _ _ k 0 0) by auto. reflexivity.
Qed.

Theorem C47_OCR : forall limit v sv, 0 < sv -> (forall l, limit = Some l -> 0 < l) ->
  0 < OCR_at limit v sv /\ (forall l, limit = Some l -> OCR_at limit v sv <= l) /\
  (forall sv', sv <= sv' -> OCR_at limit v sv' <= OCR_at limit v sv) /\
  (forall v', 0 < v <= v' -> OCR_at limit v sv <= OCR_at limit v' sv) /\
  OCR_at None v sv * sv = 106 * Rpower v (147/100).
Proof.
  intros limit v sv Hs Hl. split; [apply OCR_pos; auto|]. split; [intros l E; rewrite E; unfold OCR_at; apply Rmin_r|].
  assert (Hmono : forall a b, a <= b -> match limit with None => a | Some l => Rmin a l end <= match limit with None => b | Some l => Rmin b l end).
  { intros a b Hab. destruct limit as [l|]; [|exact Hab]. apply Rmin_glb; [eapply Rle_trans; [apply Rmin_l|exact Hab]|apply Rmin_r]. }
  split; [|split].
  - intros sv' Hle. apply Hmono. unfold Rdiv. apply Rmult_le_compat_l; [pose proof (Rpower_pos v (147/100)); lra|]. apply Rinv_le_contravar; lra.
  - intros v' Hv. apply Hmono. unfold Rdiv. apply Rmult_le_compat_r; [apply Rlt_le, Rinv_0_lt_compat, Hs|].
    assert (Rpower v (147 * / 100) <= Rpower v' (147 * / 100)) by (apply Rle_Rpower_l; lra). lra.
  - unfold OCR_at. field. lra.
Qed.

Theorem C47_K0 : forall phi o, 0 < phi < 90 -> 0 < o ->
  0 < K0_at phi o /\ (forall o', o < o' -> K0_at phi o < K0_at phi o') /\ K0_at phi 1 = 1 - sin (deg2rad phi) /\ K0_at 30 o = sqrt o / 2.
Proof.
  intros phi o Hp Ho. pose proof (sin_phi phi Hp) as Hs. split; [apply K0_pos, Hp|]. split; [|split].
  - intros o' Hlt. unfold K0_at. apply Rmult_lt_compat_l; [lra|]. apply Rlt_Rpower_l; lra.
  - unfold K0_at. rewrite rpower_1. lra.
  - unfold K0_at. rewrite sin_30. replace (1/2) with (/ 2) by lra. rewrite Rpower_sqrt by exact Ho. lra.
Qed.

Theorem C47_PI : forall v, (PI_at v = 10 <-> v <= 200) /\ (PI_at v = 5 <-> 200 < v <= 360) /\ (PI_at v = 0 <-> 360 < v).
Proof. intros v. unfold PI_at. destruct (Rleb_spec v 200), (Rleb_spec v 360); repeat split; intros; lra. Qed.

(** The mean stress lies between the smaller and the larger of the vertical and
    the horizontal stress. *)
Theorem C47_mean_stress : forall sv k, 0 < sv -> 0 < k ->
  0 < mean_stress_at sv k /\ Rmin sv (k * sv) <= mean_stress_at sv k <= Rmax sv (k * sv) /\ 3 * mean_stress_at sv k = sv + 2 * (k * sv).
Proof.
  intros sv k Hs Hk. split; [apply mean_stress_pos; auto|]. unfold mean_stress_at. split; [|field].
  assert (0 < k * sv) by (apply Rmult_lt_0_compat; auto).
  unfold Rmin, Rmax. destruct (Rle_dec sv (k * sv)); lra.
Qed.

Theorem C47_strength : forall phi v o sv k, 0 < phi < 90 -> 0 < sv -> 0 < k -> 0 < o ->
  0 < strength_at phi v o sv k /\
  (v <= 760 -> strength_at phi v o sv k = 336/1000 * Rpower o (8/10) * sv) /\
  (760 < v -> 12/10 * tan (deg2rad phi) * Rmin sv (k * sv) <= strength_at phi v o sv k <= 12/10 * tan (deg2rad phi) * Rmax sv (k * sv)).
Proof.
  intros phi v o sv k Hp Hs Hk Ho. split; [apply strength_pos; auto|]. unfold strength_at. split; intros Hv.
  - rewrite (proj2 (Rleb_true v 760) Hv). lra.
  - rewrite (proj2 (Rleb_false v 760) Hv). pose proof (sin_phi phi Hp). pose proof (tan_phi phi Hp) as Ht.
    set (s1 := Rmax sv (k * sv)). set (s3 := Rmin sv (k * sv)). set (sp := sin (deg2rad phi)) in *. set (t := tan (deg2rad phi)) in *.
    assert (s3 <= s1) by (eapply Rle_trans; [apply Rmin_l|apply Rmax_l]).
    assert (Hd : 0 <= (s1 - s3) / 2) by lra.
    assert (s3 <= (s1 + s3) / 2 - (s1 - s3) / 2 * sp <= s1) by nra.
    split; nra.
Qed.

(** mu is positive, never reduced, unchanged above 4 %; the adjustment is not
    monotone: a larger raw value can give a smaller mu (finding). *)
Theorem C47_mu : forall G T o p, 0 < G -> 0 < T ->
  0 < mu_adjust (mu_raw G T o p) /\ mu_raw G T o p <= mu_adjust (mu_raw G T o p) /\
  (4/100 < mu_raw G T o p -> mu_adjust (mu_raw G T o p) = mu_raw G T o p).
Proof.
  intros G T o p HG HT. pose proof (mu_raw_pos G T o p HG HT) as H. pose proof (mu_adjust_ge _ H). split; [lra|]. split; [lra|].
  intros Hm. unfold mu_adjust. rewrite !(proj2 (Rleb_false _ _)) by lra. reflexivity.
Qed.

Theorem C47_mu_monotone_refuted : exists m1 m2, 0 < m1 < m2 /\ mu_adjust m2 < mu_adjust m1.
Proof.
  exists (20/1000), (21/1000). split; [lra|]. unfold mu_adjust.
  rewrite (proj2 (Rleb_true (20/1000) (2/100))) by lra. rewrite (proj2 (Rleb_false (21/1000) (2/100))) by lra. rewrite (proj2 (Rleb_true (21/1000) (3/100))) by lra.
  replace (236/1000 * 3) with (236/1000 * 2 + 236/1000) by lra. rewrite Rpower_plus.
  assert (H : 105/100 < Rpower 10 (236/1000)).
  { apply Rlt_le_trans with (Rpower 10 (1/5)); [|apply Rle_Rpower; lra].
    destruct (Rlt_or_le (105/100) (Rpower 10 (1/5))) as [|C]; [assumption|exfalso].
    assert (E : Rpower 10 (1/5) ^ 5 = 10).
    { rewrite <- Rpower_pow by apply Rpower_pos. rewrite Rpower_mult. replace (1/5 * INR 5) with 1 by (cbn; lra). apply Rpower_1. lra. }
    pose proof (Rpower_pos 10 (1/5)). pose proof (pow_incr (Rpower 10 (1/5)) (105/100) 5 ltac:(lra)). rewrite E in *. lra. }
  pose proof (Rpower_pos 10 (236/1000 * 2)). nra.
Qed.

Example C47_instance : exists s, calc_vertical_stress [2; 4] [1000; 2000] = Ok ([2; 4], s) /\ nth 1 s 0 = 981/100 * 6000.
Proof.
  destruct (C47_vertical_stress [2; 4] [1000; 2000] 4 eq_refl eq_refl ltac:(lra)) as (s & E & _ & H & _).
  exists s. split; [exact E|]. rewrite H by (cbn; lia). unfold weight_above, grav. cbn. lra.
Qed.

(** ** C48 Darendeli curves *)
Definition good_soil (l : soil) : Prop := 0 < s_sv l /\ 0 < s_K0 l /\ 0 <= s_PI l /\ 0 < s_OCR l.

Theorem C48_curves : forall ls gs, Forall good_soil ls -> Forall (fun g => 0 < g) gs ->
  exists out, produce_Darendeli_curves ls (Some gs) = Ok out /\ length out = length ls /\
    forall k, (k < length ls)%nat ->
      let '(GG, xi, gr) := nth k out ([], [], 0) in
      0 < gr /\ length GG = length gs /\ length xi = length gs /\
      (forall i, (i < length gs)%nat -> 0 < nth i GG 0 < 1 /\ 0 < nth i xi 0) /\
      (forall i j, (i < length gs)%nat -> (j < length gs)%nat -> nth i gs 0 < nth j gs 0 -> nth j GG 0 < nth i GG 0) /\
      (forall i, (i < length gs)%nat -> nth i gs 0 = 100 * gr -> nth i GG 0 = 1/2) /\
      (* it is the MKZ curve with beta = 1, s = 0.919 *)
      (forall i G, (i < length gs)%nat -> 0 < G ->
         tau_MKZ gr 1 phi5 G (nth i gs 0 / 100) = Fin (G * (nth i gs 0 / 100) * nth i GG 0)).
Proof.
  intros ls gs Hs Hg. unfold produce_Darendeli_curves. eexists. split; [reflexivity|]. split; [apply map_length|].
  intros k Hk. set (f := fun l : soil => _).
  assert (En : nth k (map f ls) ([], [], 0) = f (nth k ls (mksoil 0 0 0 0))).
  { rewrite (nth_indep _ _ (f (mksoil 0 0 0 0))) by (rewrite map_length; exact Hk). apply map_nth. }
  rewrite En. unfold f. set (l := nth k ls _). assert (Hl : good_soil l) by (apply (proj1 (Forall_forall _ _) Hs), nth_In, Hk).
  destruct Hl as (L1 & L2 & L3 & L4). set (gr := gamma_r_pct (s_PI l) (s_OCR l) (atm_of l)).
  assert (Hgr : 0 < gr) by (apply gamma_r_pos, L3).
  assert (Hgi : forall i, (i < length gs)%nat -> 0 < nth i gs 0) by (intros i Hi; apply (proj1 (Forall_forall _ _) Hg), nth_In, Hi).
  assert (EG : forall i, (i < length gs)%nat -> nth i (map (dar_GGmax gr) gs) 0 = dar_GGmax gr (nth i gs 0)) by (intros; apply nth_map_fin; auto).
  assert (EX : forall i, (i < length gs)%nat -> nth i (map (dar_xi (s_PI l) (s_OCR l) (atm_of l) gr) gs) 0 = dar_xi (s_PI l) (s_OCR l) (atm_of l) gr (nth i gs 0)) by (intros; apply nth_map_fin; auto).
  split; [lra|]. rewrite !map_length. do 2 (split; [reflexivity|]). split; [|split; [|split]].
  - intros i Hi. rewrite EG, EX by exact Hi. split; [apply dar_GGmax_range|]. unfold dar_xi.
    pose proof dar_b_pos. pose proof (Rpower_pos (dar_GGmax gr (nth i gs 0)) (1/10)). pose proof (dar_masing_pos gr (nth i gs 0) Hgr (Hgi i Hi)).
    pose proof (dar_Dmin_pos (s_PI l) (s_OCR l) (atm_of l) L3).
    assert (0 < dar_b * Rpower (dar_GGmax gr (nth i gs 0)) (1/10) * dar_masing gr (nth i gs 0)) by (apply Rmult_lt_0_compat; [apply Rmult_lt_0_compat|]; auto). lra.
  - intros i j Hi Hj Hij. rewrite !EG by auto. apply dar_GGmax_ratio; auto. apply Rmult_lt_compat_r; [apply Rinv_0_lt_compat, Hgr|exact Hij].
  - intros i Hi E. rewrite EG by exact Hi. replace (nth i gs 0) with gr by lra. unfold dar_GGmax. replace (gr / gr) with 1 by (field; lra). rewrite rpower_1. lra.
  - intros i G Hi HG. rewrite tau_MKZ_val; [|lra|lra|unfold phi5; lra]. f_equal. rewrite EG by exact Hi. unfold mkz_val, dar_GGmax.
    specialize (Hgi i Hi). rewrite Rabs_pos_eq by lra. replace (nth i gs 0 / 100 / (gr / 100)) with (nth i gs 0 / gr) by (field; lra).
    assert (0 < nth i gs 0 / gr) by (apply Rdiv_lt_0_compat; lra). rewrite pw_pos by lra.
    pose proof (Rpower_pos (nth i gs 0 / gr) phi5). field. lra.
Qed.

(** More confining stress, plasticity or over-consolidation: larger reference
    strain, hence higher modulus at every strain. *)
Theorem C48_confinement : forall P P' o o' p p' g, 0 <= P <= P' -> 0 < o <= o' -> 0 < p <= p' -> 0 < g ->
  gamma_r_pct P o p <= gamma_r_pct P' o' p' /\
  dar_GGmax (gamma_r_pct P o p) g <= dar_GGmax (gamma_r_pct P' o' p') g /\
  (p < p' -> dar_GGmax (gamma_r_pct P o p) g < dar_GGmax (gamma_r_pct P' o' p') g).
Proof.
  intros P P' o o' p p' g HP Ho Hp Hg.
  assert (A : 352/10000 + 10/10000 * P * Rpower o (3246/10000) <= 352/10000 + 10/10000 * P' * Rpower o' (3246/10000)).
  { pose proof (Rpower_pos o (3246/10000)). assert (Rpower o (3246/10000) <= Rpower o' (3246/10000)) by (apply Rle_Rpower_l; lra). nra. }
  assert (A0 : 0 < 352/10000 + 10/10000 * P * Rpower o (3246/10000)) by (pose proof (Rpower_pos o (3246/10000)); nra).
  assert (B : Rpower p (3483/10000) <= Rpower p' (3483/10000)) by (apply Rle_Rpower_l; lra).
  pose proof (Rpower_pos p (3483/10000)) as B0.
  assert (Hle : gamma_r_pct P o p <= gamma_r_pct P' o' p') by (unfold gamma_r_pct; apply Rmult_le_compat; lra).
  assert (H1 : 0 < gamma_r_pct P o p) by (apply gamma_r_pos; lra). assert (H2 : 0 < gamma_r_pct P' o' p') by (apply gamma_r_pos; lra).
  assert (Hs : forall a b, 0 < a < b -> dar_GGmax a g < dar_GGmax b g).
  { intros a b Hab. apply dar_GGmax_ratio; try lra. apply Rmult_lt_compat_l; [lra|]. apply Rinv_lt_contravar; [apply Rmult_lt_0_compat|]; lra. }
  split; [exact Hle|]. split.
  - destruct (Rle_lt_or_eq_dec _ _ Hle) as [H|H]; [left; apply Hs; lra|rewrite H; lra].
  - intros Hlt. apply Hs. split; [exact H1|].
    assert (Rpower p (3483/10000) < Rpower p' (3483/10000)) by (apply Rlt_Rpower_l; lra).
    unfold gamma_r_pct. apply Rle_lt_trans with ((352/10000 + 10/10000 * P' * Rpower o' (3246/10000)) * Rpower p (3483/10000)).
    + apply Rmult_le_compat_r; lra.
    + apply Rmult_lt_compat_l; lra.
Qed.

(** The documented default strain array is not usable (finding). *)
Theorem C48_default_strain_raises : forall ls, produce_Darendeli_curves ls None = Err TypeError.
Proof. reflexivity. Qed.

Example C48_instance : good_soil (mksoil 100000 (1/2) 10 1) /\ 0 < gamma_r_pct 10 1 1.
Proof. split; [unfold good_soil; cbn; lra|apply gamma_r_pos; lra]. Qed.

(** ** C49 the FKZ search *)
Theorem C49_kernel : forall x gr beta s G T mu,
  let '(a, gt, d) := optimization_kernel x gr beta s G T mu in
  a = 100 /\ 67/100 <= d <= 139/100 /\ 1/100000 <= gt <= 3/100 /\
  ((gt = 1/100000 /\ d = 103/100) \/
   (exists n LB, (n = 200 \/ n = 400 \/ n = 1000)%nat /\ (LB = 1/1000 \/ LB = 5/1000 \/ LB = 1/100) /\ LB / 100 <= gt /\
      In d (linspace (67/100) (139/100) n) /\
      (* gamma_t is where the two branches are closest, and d has the least area *)
      gt = nth (crossover (T_MKZ gr beta s G x) (T_FKZ G mu d T x)) x 0 /\
      Forall (fun d' => ole (area_at x (T_MKZ gr beta s G x) G mu T LB 3 d) (area_at x (T_MKZ gr beta s G x) G mu T LB 3 d'))
             (linspace (67/100) (139/100) n))).
Proof.
  intros x gr beta s G T mu. unfold optimization_kernel. set (TM := T_MKZ gr beta s G x). set (LB := lower_bound x TM T mu).
  assert (HLB : LB = 1/1000 \/ LB = 5/1000 \/ LB = 1/100) by apply lower_bound_cases.
  assert (Hsome : forall n lb gt d, (n = 200 \/ n = 400 \/ n = 1000)%nat -> (lb = 1/1000 \/ lb = 5/1000 \/ lb = 1/100) ->
    search n x TM G mu T lb 3 = Some (gt, d) ->
    100 = 100 /\ 67/100 <= d <= 139/100 /\ 1/100000 <= gt <= 3/100 /\
    ((gt = 1/100000 /\ d = 103/100) \/
     (exists n LB, (n = 200 \/ n = 400 \/ n = 1000)%nat /\ (LB = 1/1000 \/ LB = 5/1000 \/ LB = 1/100) /\ LB / 100 <= gt /\
      In d (linspace (67/100) (139/100) n) /\ gt = nth (crossover TM (T_FKZ G mu d T x)) x 0 /\
      Forall (fun d' => ole (area_at x TM G mu T LB 3 d) (area_at x TM G mu T LB 3 d')) (linspace (67/100) (139/100) n)))).
  { intros n lb gt d Hn Hlb E. apply search_spec in E as (A & B & C & D & F); [|lia].
    split; [reflexivity|]. split; [exact B|]. split; [lra|]. right. exists n, lb. repeat (split; [assumption || lra|]). assumption. }
  destruct (search 200 x TM G mu T LB 3) as [[gt d]|] eqn:E1; [apply (Hsome 200%nat LB); auto|].
  destruct (search 400 x TM G mu T LB 3) as [[gt d]|] eqn:E2; [apply (Hsome 400%nat LB); auto|].
  destruct (search 1000 x TM G mu T (5/1000) 3) as [[gt d]|] eqn:E3; [apply (Hsome 1000%nat (5/1000)); auto|].
  split; [reflexivity|]. split; [lra|]. split; [lra|]. left. split; lra.
Qed.

(** The third pass is announced as a relaxation but its lower bound 0.005 % can be
    larger than the bound of the first two passes: it then only accepts
    transition strains that they would also accept. *)
Theorem C49_third_pass_not_a_relaxation : forall x gr beta s G T mu gt d,
  lower_bound x (T_MKZ gr beta s G x) T mu = 1/1000 ->
  search 1000 x (T_MKZ gr beta s G x) G mu T (5/1000) 3 = Some (gt, d) ->
  exists v, area_at x (T_MKZ gr beta s G x) G mu T (lower_bound x (T_MKZ gr beta s G x) T mu) 3 d = Some v.
Proof.
  intros x gr beta s G T mu gt d HLB E. set (TM := T_MKZ gr beta s G x) in *. rewrite HLB.
  apply search_spec in E as (_ & _ & C & D & _); [|lia]. unfold area_at. rewrite <- D.
  rewrite (proj2 (Rleb_true (1/1000/100) gt)) by lra. rewrite (proj2 (Rleb_true gt (3/100))) by lra. cbn [andb]. eauto.
Qed.

(** ** C73 whole calibration from a profile *)
Definition ready_profile (p : list layer) : Prop :=
  (2 <= length p)%nat /\ Forall (fun l => 0 < fst l /\ 0 < snd l) (removelast p) /\
  (* no density formula divides by zero *)
  (forall k, (S k < length p)%nat -> rho_den (top (thk_of p) k + nth k (thk_of p) 0 / 2) (nth k (vs_of p) 0) <> 0).

Definition HH_usable (ps : list R) : Prop :=
  exists gt gr beta s G mu T d, ps = [gt; 100; gr; beta; s; G; mu; T; d] /\
    1/100000 <= gt <= 3/100 /\ 67/100 <= d <= 139/100 /\ 0 < gr /\ 0 < beta /\ 0 < s /\ 0 < G /\ 0 < mu /\ 0 < T.

Lemma layer_params_usable strain gr beta s G T mu : 0 < gr -> 0 < beta -> 0 < s -> 0 < G -> 0 < T -> 0 < mu ->
  HH_usable (layer_params strain gr beta s G T mu).
Proof.
  intros. unfold layer_params.
  pose proof (C49_kernel (map (fun g => g / 100) strain) gr beta s G T mu) as K.
  destruct (optimization_kernel _ gr beta s G T mu) as [[a gt] d]. destruct K as (-> & Kd & Kg & _).
  exists gt, gr, beta, s, G, mu, T, d. repeat (split; [assumption || reflexivity || lra|]). assumption.
Qed.

Lemma removelast_map {A B} (f : A -> B) l : removelast (map f l) = map f (removelast l).
Proof. induction l as [|a l IH]; [reflexivity|]. destruct l as [|b l]; [reflexivity|]. cbn [map removelast] in *. rewrite IH. reflexivity. Qed.

Lemma soil_state_spec h Vs rho : length h = length Vs -> length rho = length Vs -> h <> [] ->
  Forall (fun x => 0 < x) h -> Forall (fun x => 0 < x) rho -> 
  exists st, soil_state h Vs rho = Ok st /\ length st = length Vs /\
    forall k, (k < length Vs)%nat -> exists sv,
      nth k st (0, 0, 0, 0, 0) = (nth k Vs 0, nth k rho 0 * nth k Vs 0 ^ 2, sv, OCR_at None (nth k Vs 0) sv, K0_at 30 (OCR_at None (nth k Vs 0) sv)) /\
      sv = weight_above h rho k + nth k rho 0 * grav * nth k h 0 / 2 /\ 0 < sv.
Proof.
  intros L1 L2 Hne Hh Hr. unfold soil_state.
  pose proof (last_res_ok h 0 Hne) as Hl.
  assert (Hnz : last h 0 <> 0). { apply Rgt_not_eq. apply (proj1 (Forall_forall _ _) Hh). destruct (exists_last Hne) as (l' & a & ->). rewrite last_last. apply in_or_app. right. left. reflexivity. }
  destruct (C47_vertical_stress h rho _ ltac:(lia) Hl Hnz) as (sv & E & Lsv & Hsv & Hpos). rewrite E. cbn [bind snd].
  destruct (Hpos Hh Hr) as [Hp _]. eexists. split; [reflexivity|].
  assert (LG : length (calc_Gmax Vs rho) = length Vs) by (apply zipw_length; lia).
  assert (LO : length (calc_OCR None Vs sv) = length Vs) by (apply zipw_length; lia).
  split; [rewrite !combine_length, map_length; lia|].
  intros k Hk. exists (nth k sv 0). split; [|split; [apply Hsv; lia|apply Hp; lia]].
  assert (EO : nth k (calc_OCR None Vs sv) 0 = OCR_at None (nth k Vs 0) (nth k sv 0)) by (apply (zipw_nth _ _ _ k 0 0); lia).
  replace (0, 0, 0, 0, 0) with (0, 0, 0, 0, K0_at 30 0 * 0) by (rewrite Rmult_0_r; reflexivity). rewrite Rmult_0_r.
  rewrite combine_nth by (rewrite !combine_length, map_length; lia).
  rewrite combine_nth by (rewrite !combine_length; lia). rewrite combine_nth by (rewrite combine_length; lia). rewrite combine_nth by lia.
  rewrite EO. rewrite (nth_indep (map (K0_at 30) _) 0 (K0_at 30 0)) by (rewrite map_length; lia). rewrite map_nth, EO.
  unfold calc_Gmax. rewrite (zipw_nth _ _ _ k 0 0) by lia. reflexivity.
Qed.

(** Every profile gets one usable parameter set per finite layer (the last row,
    half space or not, is left out): transition strain between 0.001 % and 3 %,
    a = 100, d in [0.67, 1.39], Gmax = density * Vs^2, all parameters positive, so
    that the HH stress is defined for every non-negative strain. *)
Theorem C73_parameters_from_profile : forall p, ready_profile p ->
  exists ps rho, hh_param_from_profile p None = Ok ps /\ length ps = (length p - 1)%nat /\
    calc_rho (removelast (thk_of p)) (removelast (vs_of p)) = Ok rho /\
    forall k, (k < length p - 1)%nat -> HH_usable (nth k ps []) /\
      nth 3 (nth k ps []) 0 = 1 /\ nth 4 (nth k ps []) 0 = 919/1000 /\
      nth 5 (nth k ps []) 0 = nth k rho 0 * nth k (vs_of p) 0 ^ 2 /\
      forall g, 0 <= g -> exists t, tau_HH_at (nth 0 (nth k ps []) 0) (nth 1 (nth k ps []) 0) (nth 2 (nth k ps []) 0) (nth 3 (nth k ps []) 0)
         (nth 4 (nth k ps []) 0) (nth 5 (nth k ps []) 0) (nth 6 (nth k ps []) 0) (nth 7 (nth k ps []) 0) (nth 8 (nth k ps []) 0) g = Fin t.
Proof.
  intros p (Hlen & Hpos & Hden). set (h := removelast (thk_of p)). set (Vs := removelast (vs_of p)).
  assert (Eh : h = map fst (removelast p)) by apply removelast_map. assert (EV : Vs = map snd (removelast p)) by apply removelast_map.
  assert (Lr : length (removelast p) = (length p - 1)%nat).
  { destruct (exists_last (l := p)) as (p' & a & E); [destruct p; [cbn in Hlen; lia|discriminate]|]. rewrite E, removelast_app1, app_length. cbn. lia. }
  assert (Lh : length h = (length p - 1)%nat) by (rewrite Eh, map_length; exact Lr).
  assert (LV : length Vs = (length p - 1)%nat) by (rewrite EV, map_length; exact Lr).
  assert (Hh : Forall (fun x => 0 < x) h) by (rewrite Eh; apply Forall_map; eapply Forall_impl; [|exact Hpos]; intros a [A _]; exact A).
  assert (HV : Forall (fun x => 0 < x) Vs) by (rewrite EV; apply Forall_map; eapply Forall_impl; [|exact Hpos]; intros a [_ A]; exact A).
  assert (Hne : h <> []) by (destruct h; [cbn in Lh; lia|discriminate]).
  assert (Hl : last h 0 <> 0). { apply Rgt_not_eq. apply (proj1 (Forall_forall _ _) Hh). destruct (exists_last Hne) as (l' & a & ->). rewrite last_last. apply in_or_app. right. left. reflexivity. }
  destruct (C47_density h Vs _ (last_res_ok h 0 Hne) Hl ltac:(lia)) as (rho & Erho & Lrho & Hrho & _).
  assert (Hrp : Forall (fun r => 0 < r) rho) by (eapply Forall_impl; [|exact Hrho]; cbn; intros; lra).
  destruct (soil_state_spec h Vs rho ltac:(lia) Lrho Hne Hh Hrp) as (st & Est & Lst & Hst).
  set (T := map (fun '(v, G, sv, o, k) => strength_at 30 v o sv k) st).
  assert (LT : length T = length st) by (apply map_length).
  exists (zipw darendeli_layer st T), rho. unfold hh_param_from_profile. fold h Vs. cbn [bind]. rewrite Erho. cbn [bind]. rewrite Est. cbn [bind strengths].
  split; [reflexivity|]. split; [rewrite zipw_length by lia; lia|]. split; [reflexivity|].
  intros k Hk. destruct (Hst k ltac:(lia)) as (sv & Ek & _ & Hsv). set (v := nth k Vs 0) in *. set (o := OCR_at None v sv) in *.
  assert (Hv : 0 < v) by (apply (proj1 (Forall_forall _ _) HV), nth_In; lia).
  assert (Hr : 0 < nth k rho 0) by (apply (proj1 (Forall_forall _ _) Hrp), nth_In; lia).
  assert (Ho : 0 < o) by (apply OCR_pos; [exact Hsv|discriminate]).
  assert (HK : 0 < K0_at 30 o) by (apply K0_pos; lra).
  assert (ET : nth k T 0 = strength_at 30 v o sv (K0_at 30 o)).
  { unfold T. rewrite (nth_map_at _ (0, 0, 0, 0, 0)) by lia. rewrite Ek. reflexivity. }
  assert (HT : 0 < nth k T 0) by (rewrite ET; apply strength_pos; lra).
  set (G := nth k rho 0 * v ^ 2) in *. assert (HG : 0 < G) by (apply Rmult_lt_0_compat; [exact Hr|apply pow_lt, Hv]).
  rewrite (zipw_nth _ _ _ k (0, 0, 0, 0, 0) 0) by lia. rewrite Ek. cbn [darendeli_layer].
  set (gr := gamma_r_pct _ _ _ / 100). set (mu := mu_adjust _).
  assert (Hgr : 0 < gr). { assert (0 < gamma_r_pct (PI_at v) o (mean_stress_at sv (K0_at 30 o) / 101325)); [|unfold gr; lra]. apply gamma_r_pos. unfold PI_at. destruct (Rleb v 200), (Rleb v 360); lra. }
  assert (Hmu : 0 < mu) by (pose proof (C47_mu G (nth k T 0) o (mean_stress_at sv (K0_at 30 o)) HG HT); tauto).
  assert (HU := layer_params_usable dense_strain_pct gr 1 phi5 G (nth k T 0) mu Hgr ltac:(lra) ltac:(unfold phi5; lra) HG HT Hmu).
  split; [exact HU|].
  assert (Evs : nth k (vs_of p) 0 = v).
  { destruct (removelast_nth (vs_of p) k 0) as [E _]; [assert (length (vs_of p) = length p) by apply map_length; lia|]. symmetry. exact E. }
  rewrite Evs. destruct HU as (gt & gr' & b' & s' & G' & mu' & T' & d & E & Hgt & Hd & H1 & H2 & H3 & H4 & H5 & H6).
  assert (E2 : b' = 1 /\ s' = phi5 /\ G' = G).
  { unfold layer_params in E. destruct (optimization_kernel _ gr 1 phi5 G (nth k T 0) mu) as [[a gt0] d0]. injection E. auto. }
  destruct E2 as (-> & -> & ->). rewrite E. cbn [nth]. split; [reflexivity|]. split; [reflexivity|]. split; [reflexivity|].
  intros g Hg. destruct (C44_HH_between_branches gt 100 gr' 1 phi5 G mu' T' d g) as (x & y & z & _ & _ & Ez & _); try lra. exists z. exact Ez.
Qed.

(** Wrong strength arrays are rejected. *)
Theorem C73_strength_length : forall p t, length t <> (length p - 1)%nat -> p <> [] -> hh_param_from_profile p (Some t) = Err ValueError.
Proof.
  intros p t H Hp. unfold hh_param_from_profile. replace (Nat.eqb (length t) (length (removelast (vs_of p)))) with false; [reflexivity|].
  symmetry. apply Nat.eqb_neq. destruct (exists_last Hp) as (p' & a & ->). unfold vs_of.
  rewrite map_app. cbn [map]. rewrite removelast_app1, map_length. rewrite app_length in H. cbn [length] in H.
  intros E. apply H. rewrite E. apply eq_sym, Nat.add_sub.
Qed.

Example C73_instance : ready_profile [(10, 200); (0, 800)].
Proof.
  split; [cbn; lia|]. split; [repeat constructor; cbn; lra|].
  intros [|k] Hk; [|cbn in Hk; lia]. cbn. unfold top. cbn. unfold rho_den.
  assert (0 <= log10 (0 + 10 / 2)).
  { unfold log10. apply Rmult_le_pos; [|apply Rlt_le, Rinv_0_lt_compat, ln10_pos]. replace (0 + 10 / 2) with 5 by lra.
    assert (L : ln 1 < ln 5) by (apply ln_increasing; lra). rewrite ln_1 in L. lra. }
  lra.
Qed.

(** ** C74 calibration from curves: the material number selects the curve *)
Lemma expand_curves_spec curves : forall mats q, mats <> [] -> (q < length curves)%nat ->
  length (expand_curves curves mats) = length curves /\
  nth q (expand_curves curves mats) [] = List.concat (map (fun m => slice (m * 4 - 4) (m * 4) (nth q curves [])) mats).
Proof.
  induction mats as [|m mats IH]; intros q Hne Hq; [congruence|]. destruct mats as [|m' mats].
  - cbn [expand_curves map List.concat]. rewrite cols_length, cols_nth, app_nil_r. auto.
  - destruct (IH q ltac:(discriminate) Hq) as [L E].
    change (expand_curves curves (m :: m' :: mats)) with (hstack (cols (m * 4 - 4) (m * 4) curves) (expand_curves curves (m' :: mats))).
    rewrite hstack_length by (rewrite cols_length, L; reflexivity). rewrite cols_length. split; [reflexivity|].
    rewrite hstack_nth by (rewrite ?cols_length, ?L; lia). rewrite cols_nth, E. reflexivity.
Qed.

Lemma slice_len {A} a b (l : list A) : length (slice a b l) = (Nat.min b (length l) - Nat.min a (length l))%nat.
Proof. unfold slice. rewrite firstn_length, skipn_length. lia. Qed.

Lemma nth_firstn_lt {A} (l : list A) n i d : (i < n)%nat -> nth i (firstn n l) d = nth i l d.
Proof. revert n i; induction l as [|x l IH]; intros [|n] [|i] H; cbn; auto; try lia. apply IH. lia. Qed.

Lemma slice_nth {A} a b (l : list A) i d : (i < b - a)%nat -> nth i (slice a b l) d = nth (a + i) l d.
Proof.
  intros H. unfold slice. rewrite nth_firstn_lt by exact H. 
  rewrite <- (firstn_skipn a l) at 2. destruct (Nat.le_gt_cases a (length l)) as [L|L].
  - rewrite app_nth2; rewrite firstn_length_le by exact L; [|lia]. f_equal. lia.
  - rewrite skipn_all2 by lia. rewrite app_nil_r, !nth_overflow; auto; cbn; rewrite ?firstn_length; lia.
Qed.

Lemma concat_blocks_nth {A} (d : A) (ls : list (list A)) w : Forall (fun l => length l = w) ls ->
  forall j i, (j < length ls)%nat -> (i < w)%nat -> nth (j * w + i) (List.concat ls) d = nth i (nth j ls []) d.
Proof.
  induction 1 as [|l ls Hl _ IH]; intros j i Hj Hi; [cbn in Hj; lia|]. cbn [List.concat]. destruct j as [|j].
  - cbn [Nat.mul Nat.add nth]. rewrite app_nth1 by lia. reflexivity.
  - rewrite app_nth2 by (rewrite Hl; nia). cbn [nth]. rewrite <- (IH j i) by (cbn in Hj; lia). f_equal. rewrite Hl. nia.
Qed.

Definition material_ok (c m : nat) : Prop := (1 <= m /\ m * 4 <= c)%nat.

Lemma expanded_width_spec c mats : (expanded_width c mats <= length mats * 4)%nat /\
  (expanded_width c mats = (length mats * 4)%nat <-> Forall (material_ok c) mats).
Proof.
  induction mats as [|m mats [IH1 IH2]]; [cbn; split; [lia|split; [constructor|reflexivity]]|].
  cbn [expanded_width fold_right length] in *. fold (expanded_width c mats) in *.
  set (t := (Nat.min (m * 4) c - Nat.min (m * 4 - 4) c)%nat). assert (Ht : (t <= 4)%nat) by (unfold t; lia).
  assert (Ht4 : t = 4%nat <-> material_ok c m) by (unfold t, material_ok; lia). split; [lia|]. split.
  - intros E. constructor; [apply Ht4; lia|apply IH2; lia].
  - intros F. inversion F; subst. apply Ht4 in H1. apply IH2 in H2. lia.
Qed.

(** Column [col] (strain 0, G/Gmax 1) of material [m]. *)
Definition material_column (curves : list (list R)) (m col : nat) : list R := map (fun r => nth ((m - 1) * 4 + col) r 0) curves.

Lemma expanded_column c curves mats j col : Forall (fun r => length r = c) curves -> Forall (material_ok c) mats -> (j < length mats)%nat -> (col < 4)%nat ->
  map (fun r => nth (j * 4 + col) r 0) (expand_curves curves mats) = material_column curves (nth j mats 0%nat) col.
Proof.
  intros Hc Hm Hj Hcol. assert (Hne : mats <> []) by (destruct mats; [cbn in Hj; lia|discriminate]).
  destruct curves as [|r0 curves0] eqn:Ec.
  { destruct (expand_curves [] mats) as [|r E] eqn:E0; [reflexivity|exfalso]. destruct mats as [|m [|m' mats]]; cbn in E0; congruence. }
  rewrite <- Ec in *. assert (L : length (expand_curves curves mats) = length curves) by (apply (expand_curves_spec curves mats 0 Hne); rewrite Ec; cbn; lia).
  apply (list_ext 0); unfold material_column; rewrite !map_length; [exact L|]. intros q Hq. rewrite L in Hq.
  rewrite (nth_map_at _ []) by lia. rewrite (nth_map_at _ []) by lia.
  destruct (expand_curves_spec curves mats q Hne Hq) as [_ E]. rewrite E.
  set (row := nth q curves []). assert (Hrow : length row = c) by (apply (proj1 (Forall_forall _ _) Hc), nth_In, Hq).
  rewrite concat_blocks_nth with (w := 4%nat).
  - rewrite (nth_map_at _ 0%nat) by exact Hj. set (m := nth j mats 0%nat). assert (Mk : material_ok c m) by (apply (proj1 (Forall_forall _ _) Hm), nth_In, Hj).
    unfold material_ok in Mk. rewrite slice_nth by lia. f_equal. lia.
  - apply Forall_map. eapply Forall_impl; [|exact Hm]. intros m Mk. unfold material_ok in Mk. rewrite slice_len, Hrow. lia.
  - rewrite map_length. exact Hj.
  - exact Hcol.
Qed.

Lemma curves_layers_spec fit E : forall l j,
  (forall k, (k < length l)%nat -> exists q, curves_layer fit E (j + k) (nth k l (0, 0, 0, 0, 0, 0)) = Ok q) ->
  exists ps, curves_layers fit E j l = Ok ps /\ length ps = length l /\
    forall k, (k < length l)%nat -> curves_layer fit E (j + k) (nth k l (0, 0, 0, 0, 0, 0)) = Ok (nth k ps []).
Proof.
  induction l as [|x l IH]; intros j H.
  - exists []. cbn. split; [reflexivity|]. split; [reflexivity|]. intros k Hk. lia.
  - destruct (H 0%nat ltac:(cbn; lia)) as [q Eq]. cbn [nth] in Eq. rewrite Nat.add_0_r in Eq.
    destruct (IH (S j)) as (ps & Eps & L & Hps).
    { intros k Hk. destruct (H (S k) ltac:(cbn; lia)) as [q' Eq']. exists q'. cbn [nth] in Eq'. replace (S j + k)%nat with (j + S k)%nat by lia. exact Eq'. }
    exists (q :: ps). cbn [curves_layers]. rewrite Eq. cbn [bind]. rewrite Eps. cbn [bind]. split; [reflexivity|]. split; [cbn; lia|].
    intros [|k] Hk; cbn [nth]; [rewrite Nat.add_0_r; exact Eq|]. replace (j + S k)%nat with (S j + k)%nat by lia. apply Hps. cbn in Hk. lia.
Qed.

Section FromCurvesTheorems.
Variable fit : list (R * R) -> res (R * R * R).

(** Every layer gets the parameters fitted to the curve of its own material
    number, whatever the order or repetition of the material numbers. *)
Theorem C74_material_number_selects_the_curve : forall p rho mats c curves,
  (2 <= length p)%nat -> Forall (fun l => 0 < fst l /\ 0 < snd l) (removelast p) ->
  length rho = (length p - 1)%nat -> length mats = (length p - 1)%nat -> Forall (fun r => 0 < r) rho ->
  Forall (fun r => length r = c) curves -> Forall (material_ok c) mats ->
  (forall m, In m mats -> exists gr s beta,
     fit (combine (map (fun g => g / 100) (material_column curves m 0)) (material_column curves m 1)) = Ok (gr, s, beta) /\ 0 < gr /\ 0 < s /\ 0 < beta) ->
  exists ps, hh_param_from_curves fit p (Some (rho, mats)) c curves None = Ok ps /\ length ps = (length p - 1)%nat /\
    forall k, (k < length p - 1)%nat -> HH_usable (nth k ps []) /\
      fit (combine (map (fun g => g / 100) (material_column curves (nth k mats 0%nat) 0)) (material_column curves (nth k mats 0%nat) 1)) =
        Ok (nth 2 (nth k ps []) 0, nth 4 (nth k ps []) 0, nth 3 (nth k ps []) 0) /\
      nth 5 (nth k ps []) 0 = nth k rho 0 * nth k (vs_of p) 0 ^ 2.
Proof.
  intros p rho mats c curves Hlen Hpos Lrho Lm Hrp Hc Hm Hfit. set (h := removelast (thk_of p)). set (Vs := removelast (vs_of p)).
  assert (Eh : h = map fst (removelast p)) by apply removelast_map. assert (EV : Vs = map snd (removelast p)) by apply removelast_map.
  assert (Lr : length (removelast p) = (length p - 1)%nat).
  { destruct (exists_last (l := p)) as (p' & a & E); [destruct p; [cbn in Hlen; lia|discriminate]|]. rewrite E, removelast_app1, app_length. cbn. lia. }
  assert (Lh : length h = (length p - 1)%nat) by (rewrite Eh, map_length; exact Lr).
  assert (LV : length Vs = (length p - 1)%nat) by (rewrite EV, map_length; exact Lr).
  assert (Hh : Forall (fun x => 0 < x) h) by (rewrite Eh; apply Forall_map; eapply Forall_impl; [|exact Hpos]; intros a [A _]; exact A).
  assert (HV : Forall (fun x => 0 < x) Vs) by (rewrite EV; apply Forall_map; eapply Forall_impl; [|exact Hpos]; intros a [_ A]; exact A).
  assert (Hne : h <> []) by (destruct h; [cbn in Lh; lia|discriminate]).
  destruct (soil_state_spec h Vs rho ltac:(lia) ltac:(lia) Hne Hh Hrp) as (st & Est & Lst & Hst).
  unfold hh_param_from_curves. fold h Vs. cbn [bind]. rewrite Est. cbn [bind strengths].
  set (T := map (fun '(v, G, sv, o, k) => strength_at 30 v o sv k) st). assert (LT : length T = length st) by (apply map_length).
  assert (EW : expanded_width c mats = (length Vs * 4)%nat) by (rewrite LV, <- Lm; apply expanded_width_spec; exact Hm).
  rewrite EW, Nat.eqb_refl.
  assert (Lc : length (combine st T) = (length p - 1)%nat) by (rewrite combine_length; lia).
  assert (HK : forall k, (k < length p - 1)%nat -> exists q, curves_layer fit (expand_curves curves mats) k (nth k (combine st T) (0, 0, 0, 0, 0, 0)) = Ok q /\
    HH_usable q /\ fit (combine (map (fun g => g / 100) (material_column curves (nth k mats 0%nat) 0)) (material_column curves (nth k mats 0%nat) 1)) = Ok (nth 2 q 0, nth 4 q 0, nth 3 q 0) /\
    nth 5 q 0 = nth k rho 0 * nth k (vs_of p) 0 ^ 2).
  { intros k Hk. rewrite combine_nth by lia. destruct (Hst k ltac:(lia)) as (sv & Ek & _ & Hsv). rewrite Ek.
    set (v := nth k Vs 0) in *. set (o := OCR_at None v sv) in *.
    assert (Hv : 0 < v) by (apply (proj1 (Forall_forall _ _) HV), nth_In; lia).
    assert (Hr : 0 < nth k rho 0) by (apply (proj1 (Forall_forall _ _) Hrp), nth_In; lia).
    assert (Ho : 0 < o) by (apply OCR_pos; [exact Hsv|discriminate]).
    assert (HK0 : 0 < K0_at 30 o) by (apply K0_pos; lra).
    assert (ET : nth k T 0 = strength_at 30 v o sv (K0_at 30 o)).
    { unfold T. rewrite (nth_map_at _ (0, 0, 0, 0, 0)) by lia. rewrite Ek. reflexivity. }
    assert (HT : 0 < nth k T 0) by (rewrite ET; apply strength_pos; lra).
    set (G := nth k rho 0 * v ^ 2) in *. assert (HG : 0 < G) by (apply Rmult_lt_0_compat; [exact Hr|apply pow_lt, Hv]).
    assert (Hin : In (nth k mats 0%nat) mats) by (apply nth_In; lia).
    destruct (Hfit _ Hin) as (gr & s & beta & Ef & Hgr & Hs & Hb).
    assert (E0 : map (fun r => nth (k * 4) r 0) (expand_curves curves mats) = material_column curves (nth k mats 0%nat) 0).
    { rewrite <- (expanded_column c) by (auto; lia). apply map_ext. intros r. rewrite Nat.add_0_r. reflexivity. }
    unfold curves_layer. rewrite E0, (expanded_column c) by (auto; lia). rewrite Ef. cbn [bind].
    set (mu := mu_adjust _). assert (Hmu : 0 < mu) by (pose proof (C47_mu G (nth k T 0) o (mean_stress_at sv (K0_at 30 o)) HG HT); tauto).
    eexists. split; [reflexivity|]. split; [apply layer_params_usable; auto|].
    assert (Evs : nth k (vs_of p) 0 = v).
    { destruct (removelast_nth (vs_of p) k 0) as [E _]; [assert (length (vs_of p) = length p) by apply map_length; lia|]. symmetry. exact E. }
    rewrite Evs. unfold layer_params. destruct (optimization_kernel _ gr beta s G (nth k T 0) mu) as [[a gt] d]. cbn [nth]. split; reflexivity. }
  destruct (curves_layers_spec fit (expand_curves curves mats) (combine st T) 0) as (ps & Eps & Lps & Hps).
  { intros k Hk. cbn [Nat.add]. destruct (HK k ltac:(lia)) as (q & Eq & _). exists q. exact Eq. }
  exists ps. split; [exact Eps|]. split; [lia|]. intros k Hk. destruct (HK k Hk) as (q & Eq & Q). specialize (Hps k ltac:(lia)). cbn [Nat.add] in Hps.
  rewrite Eq in Hps. injection Hps as ->. exact Q.
Qed.

(** A material number without curve (0 for a non-rock layer, or beyond the last
    curve) is an error, never silently another curve. *)
Theorem C74_unknown_material_raises : forall p rho mats c curves ps,
  p <> [] -> length mats = (length p - 1)%nat -> ~ Forall (material_ok c) mats -> hh_param_from_curves fit p (Some (rho, mats)) c curves None <> Ok ps.
Proof.
  intros p rho mats c curves ps Hp Lm Hm. unfold hh_param_from_curves. cbn [bind].
  destruct (soil_state _ _ _) as [st|e]; cbn [bind strengths]; [|discriminate].
  assert (LV : length (removelast (vs_of p)) = length mats).
  { destruct (exists_last Hp) as (p' & a & ->). unfold vs_of. rewrite map_app. cbn [map]. rewrite removelast_app1, map_length, Lm, app_length. cbn [length]. symmetry. apply Nat.add_sub. }
  rewrite LV. destruct (Nat.eqb_spec (expanded_width c mats) (length mats * 4)) as [E|E]; [|discriminate].
  exfalso. apply Hm. apply (proj2 (expanded_width_spec c mats)). exact E.
Qed.
End FromCurvesTheorems.

Example C74_instance : exists ps, hh_param_from_curves (fun _ => Ok (1/1000, 9/10, 1)) [(10, 200); (5, 300); (0, 800)] (Some ([1800; 1900], [2; 1]%nat)) 8
    [[1/100; 1; 1/100; 0; 1/100; 9/10; 1/100; 0]; [1; 1/2; 1; 0; 1; 4/10; 1; 0]] None = Ok ps /\ length ps = 2%nat.
Proof.
  edestruct (C74_material_number_selects_the_curve (fun _ => Ok (1/1000, 9/10, 1)) [(10, 200); (5, 300); (0, 800)] [1800; 1900] [2; 1]%nat 8
    [[1/100; 1; 1/100; 0; 1/100; 9/10; 1/100; 0]; [1; 1/2; 1; 0; 1; 4/10; 1; 0]]) as (ps & E & L & _).
  - cbn; lia.
  - cbn; repeat constructor; cbn; lra.
  - reflexivity.
  - reflexivity.
  - repeat constructor; lra.
  - repeat constructor.
  - repeat constructor; unfold material_ok; lia.
  - intros. exists (1/1000), (9/10), 1. split; [reflexivity|lra].
  - exists ps. split; [exact E|exact L].
Qed.
