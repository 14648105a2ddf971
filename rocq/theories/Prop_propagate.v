(** C90, C91: motions sent through a transfer function or a profile; site effect adjustment. *)
From Coq Require Import Reals List Bool ZArith Lia Lra String.
From Coquelicot Require Import Complex.
From Coq Require Import List.
From Verif Require Import Base M_generic P_generic M_profile P_profile Prop_profile M_vs_profile P_vs_profile M_motion P_motion Prop_motion M_interp M_dft P_dft M_signal M_linear P_linear Prop_linear M_simlin P_simlin P_eqlin M_amplify P_unwrap P_amplify Prop_unwrap Prop_amplify Prop_siteresp M_freqspec Prop_freqspec M_results M_sitefactors Prop_sitefactors M_propagate.
Import ListNotations.
Open Scope list_scope.
Open Scope R_scope.

(** ** C90 *)

(** [m'] is a motion object for the acceleration history [y], and every array that existed
    keeps its values. *)
Record made_of (sh sh' : sheap) (m' : motion) (y : signal) : Prop := mkmade {
  mo_accel : sig_at sh' (m_accel m') = y;
  mo_rest : num_int y = Ok (sig_at sh' (m_veloc m'), sig_at sh' (m_displ m'));
  mo_npts : m_npts m' = length y;
  mo_dt : m_dt m' = step_of y;
  mo_new : (length sh <= m_accel m')%nat;
  mo_kept : forall l, (l < length sh)%nat -> sig_at sh' l = sig_at sh l }.

Lemma conv_m y : conv U_m y = y.
Proof. unfold conv. cbn. rewrite <- (map_id y) at 2. apply map_ext. intros [a b]; reflexivity. Qed.
Lemma sig_at_new (sh : sheap) (y : signal) : sig_at (sh ++ [y]) (length sh) = y.
Proof. unfold sig_at. rewrite app_nth2 by lia. rewrite Nat.sub_diag. reflexivity. Qed.
Lemma sig_at_old (sh : sheap) (y : signal) l : (l < length sh)%nat -> sig_at (sh ++ [y]) l = sig_at sh l.
Proof. intros H. unfold sig_at. apply app_nth1. exact H. Qed.

Lemma motion_of_some (sh : sheap) (y : signal) : (2 <= length y)%nat ->
  exists sh' m', motion_of sh (Ok (Some y)) = (sh', Ok (Some m')) /\ made_of sh sh' m' y.
Proof.
  intros H. assert (Hl : (length sh < length (sh ++ [y]))%nat) by (rewrite app_length; cbn; lia).
  destruct (proj2 (proj1 (C71_constructor_accepts_iff (sh ++ [y]) (length sh) U_m T_accel Hl))) as (sh' & m' & E).
  { rewrite sig_at_new. split; [exact H|]. split; [discriminate|]. split; [discriminate|]. intros [N|N]; discriminate. }
  exists sh', m'. unfold motion_of. rewrite E. split; [reflexivity|].
  destruct (C71_constructed_motion _ _ _ _ _ _ Hl E) as (a & v & w & Ea & Ev & Ew & Hh & _ & _ & _ & E0 & Ek & El & Ed & En & _).
  rewrite sig_at_new in *. rewrite conv_m in *. destruct Hh as [-> Hi]. constructor; try assumption.
  - rewrite Ev, Ew. exact Hi.
  - rewrite El. lia.
  - intros l Hll. rewrite Ek by lia. apply sig_at_old. exact Hll.
Qed.

Lemma amplified_long s f a taper extrap deconv s' tab' y : amplified s f a taper extrap deconv s' tab' y -> (2 <= length y)%nat.
Proof. intros ((amp & ph & _ & HP) & L & _). destruct (prepared_ok _ _ _ _ _ HP) as (Hn & _). lia. Qed.

Lemma amp_run s f a taper extrap deconv s' tab' y : amplified s f a taper extrap deconv s' tab' y -> amplify_motion s f a taper extrap deconv = Ok (Some y).
Proof. intros H. apply C26_result. eauto. Qed.
Lemma motion_of_ok sh (r : res (option signal)) : (forall y, r = Ok (Some y) -> (2 <= length y)%nat) ->
  forall sh' m', motion_of sh r = (sh', Ok (Some m')) -> exists y, r = Ok (Some y) /\ made_of sh sh' m' y.
Proof.
  intros HL sh' m' E. destruct r as [[y|]|e]; try discriminate. exists y. split; [reflexivity|].
  destruct (motion_of_some sh y (HL y eq_refl)) as (s2 & m2 & E2 & M). rewrite E in E2. injection E2 as -> ->. exact M.
Qed.

(** Through a transfer function: a motion comes out exactly when there is a record that
    satisfies the specification, and it is the motion object of that record. *)
Theorem C90_by_tf : forall sh m sp taper extrap deconv,
  let s := sig_at sh (m_accel m) in
  let through := amplified s (fs_freq sp) (TFComplex (fs_spec sp)) taper extrap deconv in
  ((exists sh' m', amplify_by_tf sh m (Inst sp) taper extrap deconv = (sh', Ok (Some m'))) <-> exists s' tab' y, through s' tab' y) /\
  (forall sh' m', amplify_by_tf sh m (Inst sp) taper extrap deconv = (sh', Ok (Some m')) ->
     exists s' tab' y, through s' tab' y /\ made_of sh sh' m' y /\ (extrap = true -> m_npts m' = length s /\ times y = times s)).
Proof.
  intros sh m sp taper extrap deconv s through. cbn [amplify_by_tf]. fold s.
  assert (HL : forall y, amplify_motion s (fs_freq sp) (TFComplex (fs_spec sp)) taper extrap deconv = Ok (Some y) -> (2 <= length y)%nat).
  { intros y E. apply C26_result in E as (s' & tab' & H). eapply amplified_long; eauto. }
  split; [split|].
  - intros (sh' & m' & E). apply motion_of_ok in E as (y & E & _); [|exact HL]. apply C26_result in E as (s' & tab' & H). eauto.
  - intros (s' & tab' & y & H). rewrite (proj2 (C26_result _ _ _ _ _ _ y)) by eauto.
    destruct (motion_of_some sh y (amplified_long _ _ _ _ _ _ _ _ _ H)) as (sh' & m' & E & _). eauto.
  - intros sh' m' E. apply motion_of_ok in E as (y & E & M); [|exact HL]. apply C26_result in E as (s' & tab' & H). exists s', tab', y. split; [exact H|]. split; [exact M|].
    intros ->. destruct H as ((amp & ph & _ & HP) & L & T & _). destruct HP as (_ & _ & _ & -> & _). rewrite (mo_npts _ _ _ _ M). split; [exact L|exact T].
Qed.

(** Refusals leave every array alone. *)
Theorem C90_by_tf_errors : forall sh m tf taper extrap deconv sh' e,
  amplify_by_tf sh m tf taper extrap deconv = (sh', Err e) <->
  sh' = sh /\ (((forall sp, tf <> Inst sp) /\ e = TypeError) \/
    exists sp, tf = Inst sp /\ amplify_motion (sig_at sh (m_accel m)) (fs_freq sp) (TFComplex (fs_spec sp)) taper extrap deconv = Err e).
Proof.
  intros sh m tf taper extrap deconv sh' e. destruct tf as [sp| |]; cbn [amplify_by_tf].
  - split.
    + intros H. destruct (amplify_motion _ _ _ _ _ _) as [[y|]|e'] eqn:E; [|discriminate|cbn in H; injection H as <- <-; eauto].
      exfalso. apply C26_result in E as (s' & tab' & H'). destruct (motion_of_some sh y (amplified_long _ _ _ _ _ _ _ _ _ H')) as (s2 & m2 & E2 & _). rewrite E2 in H. discriminate.
    + intros [-> [[N _]|(sp' & [= <-] & ->)]]; [exfalso; apply (N sp eq_refl)|reflexivity].
  - split; [intros [= <- <-]; split; [reflexivity|left; split; [discriminate|reflexivity]]|intros [-> [[_ ->]|(sp & N & _)]]; [reflexivity|discriminate]].
  - split; [intros [= <- <-]; split; [reflexivity|left; split; [discriminate|reflexivity]]|intros [-> [[_ ->]|(sp & N & _)]]; [reflexivity|discriminate]].
Qed.

(** Amplifying and then deconvolving (or the reverse) by the same spectrum gives back the
    acceleration history when no factor vanishes. *)
Theorem C90_by_tf_inverse : forall sh m sp deconv sh1 m1,
  amplify_by_tf sh m (Inst sp) false true deconv = (sh1, Ok (Some m1)) ->
  (forall s' tab' y k, amplified (sig_at sh (m_accel m)) (fs_freq sp) (TFComplex (fs_spec sp)) false true deconv s' tab' y ->
     (k < length s')%nat -> factor (length s') (df_of s') tab' k <> RtoC 0) ->
  exists sh2 m2, amplify_by_tf sh1 m1 (Inst sp) false true (negb deconv) = (sh2, Ok (Some m2)) /\
    sig_at sh2 (m_accel m2) = sig_at sh (m_accel m) /\ made_of sh1 sh2 m2 (sig_at sh (m_accel m)).
Proof.
  intros sh m sp deconv sh1 m1 E HZ. apply C90_by_tf in E as (s' & tab' & y & HA & M & _).
  destruct (C26_round_trip _ _ _ _ _ _ _ _ HA (fun k Hk => HZ _ _ _ k HA Hk)) as (_ & E2 & Es). specialize (Es eq_refl). subst s'.
  cbn [amplify_by_tf]. rewrite (mo_accel _ _ _ _ M), E2.
  assert (L2 : (2 <= length (sig_at sh (m_accel m)))%nat) by (destruct HA as ((amp & ph & _ & HP) & _); destruct (prepared_ok _ _ _ _ _ HP) as (Hn & _); lia).
  destruct (motion_of_some sh1 _ L2) as (sh2 & m2 & E3 & M2). exists sh2, m2. split; [exact E3|]. split; [apply (mo_accel _ _ _ _ M2)|exact M2].
Qed.

Lemma unwrap_zero n x : In x (robust_unwrap (repeat 0 n) PI) -> x = 0.
Proof.
  set (cz := repeat 0 n). assert (CZ : forall k, nth k cz 0 = 0).
  { intros k. destruct (Nat.lt_ge_cases k (length cz)) as [Hk|Hk]; [|apply nth_overflow; exact Hk]. apply (repeat_spec n). apply nth_In. exact Hk. }
  assert (NC1 : forall a b, ~ slow_climb cz a b) by (intros a b (_ & Hb & HR & _); specialize (HR a ltac:(lia)); rewrite !CZ in HR; lra).
  assert (NC2 : forall b, ~ opening_climb cz b) by (intros b (Hb & HR & _); specialize (HR 0%nat ltac:(lia)); rewrite !CZ in HR; lra).
  destruct (C27_no_climb cz PI NC1 NC2) as (EQ & E0 & _). rewrite EQ in E0 |- *. pose proof PI_RGT_0.
  assert (AL : forall k, (k < length cz)%nat -> nth k (np_unwrap PI cz) 0 = 0).
  { induction k as [|k IH]; intros Hk; [rewrite E0; apply CZ|]. pose proof (unwrap_step PI cz k Hk) as S. rewrite !CZ, IH in S by lia.
    destruct (phase_fix_spec PI (0 - 0)) as (_ & F & _). rewrite F in S by (rewrite Rminus_0_r, Rabs_R0; lra). lra. }
  intros Hx. apply (In_nth _ _ 0) in Hx. destruct Hx as (k & Hk & <-). rewrite unwrap_length in Hk. apply AL, Hk.
Qed.

(** A spectrum equal to one leaves the acceleration as it is. *)
Theorem C90_by_tf_identity : forall sh m sp deconv sh1 m1,
  length (fs_spec sp) = length (fs_freq sp) -> (forall z, In z (fs_spec sp) -> z = RtoC 1) ->
  amplify_by_tf sh m (Inst sp) false true deconv = (sh1, Ok (Some m1)) ->
  sig_at sh1 (m_accel m1) = sig_at sh (m_accel m).
Proof.
  intros sh m sp deconv sh1 m1 HL H1 E. apply C90_by_tf in E as (s' & tab' & y & HA & M & _). rewrite (mo_accel _ _ _ _ M).
  assert (A : map Cmod (fs_spec sp) = repeat 1 (length (fs_spec sp)) /\ map carg (fs_spec sp) = repeat 0 (length (fs_spec sp))).
  { clear -H1. induction (fs_spec sp) as [|z l IH]; [split; reflexivity|]. cbn. destruct IH as [-> ->]; [intros; apply H1; right; assumption|].
    rewrite (H1 z) by (left; reflexivity). rewrite Cmod_1, carg_real. destruct (Rltb_spec 1 0); [lra|]. split; reflexivity. }
  eapply (C26_identity _ (fs_freq sp) (TFComplex (fs_spec sp))); [cbn; split; [exact HL|split; reflexivity]| | |apply C26_result; eauto].
  - destruct A as [-> _]. intros x Hx. apply repeat_spec in Hx. exact Hx.
  - destruct A as [_ ->]. intros x Hx. apply (unwrap_zero _ _ Hx).
Qed.

(** Responses add up: if the record of a third motion is [a] times that of a first one plus [b]
    times that of a second one, so is what comes out. *)
Theorem C90_superposition : forall sh m1 m2 m3 sp taper deconv a b sh1 r1 sh2 r2,
  let s k := sig_at sh (m_accel k) in
  times (s m1) = times (s m2) -> s m3 = with_vals (s m1) (mix a b (vals (s m1)) (vals (s m2))) ->
  amplify_by_tf sh m1 (Inst sp) taper true deconv = (sh1, Ok (Some r1)) ->
  amplify_by_tf sh m2 (Inst sp) taper true deconv = (sh2, Ok (Some r2)) ->
  exists sh3 r3, amplify_by_tf sh m3 (Inst sp) taper true deconv = (sh3, Ok (Some r3)) /\
    times (sig_at sh3 (m_accel r3)) = times (s m1) /\
    vals (sig_at sh3 (m_accel r3)) = mix a b (vals (sig_at sh1 (m_accel r1))) (vals (sig_at sh2 (m_accel r2))).
Proof.
  intros sh m1 m2 m3 sp taper deconv a b sh1 r1 sh2 r2 s HT H3 E1 E2.
  apply C90_by_tf in E1 as (s1 & t1 & y1 & A1 & M1 & N1), E2 as (s2 & t2 & y2 & A2 & M2 & N2).
  destruct (N1 eq_refl) as (_ & T1), (N2 eq_refl) as (_ & T2). fold (s m1) in T1. fold (s m2) in T2.
  assert (Q1 := amp_run _ _ _ _ _ _ _ _ _ A1). assert (Q2 := amp_run _ _ _ _ _ _ _ _ _ A2).
  pose proof (C26_superposition _ _ _ _ _ _ _ _ a b HT Q1 Q2) as Q3. rewrite <- H3 in Q3. 
  apply C26_result in Q3 as (s3 & t3 & A3).
  destruct (proj2 (proj1 (C90_by_tf sh m3 sp taper true deconv))) as (sh3 & r3 & E3); [eauto|]. exists sh3, r3. split; [exact E3|].
  apply C90_by_tf in E3 as (s3' & t3' & y3 & A3' & M3 & _). rewrite (mo_accel _ _ _ _ M1), (mo_accel _ _ _ _ M2), (mo_accel _ _ _ _ M3).
  assert (Q : Ok (Some y3) = Ok (Some (with_vals (s m1) (mix a b (vals y1) (vals y2))))).
  { rewrite <- (amp_run _ _ _ _ _ _ _ _ _ A3'). eapply amp_run, A3. }
  injection Q as ->.
  assert (LY : length (mix a b (vals y1) (vals y2)) = length (s m1)).
  { rewrite mix_length; rewrite !vals_length, <- !times_length; [rewrite T1; reflexivity|]. rewrite T1, T2, HT. reflexivity. }
  split; [apply times_with_vals, LY|apply vals_with_vals, LY].
Qed.

(** ** Through a profile *)
Lemma siteresp_long t s b deconv y fz : linear_site_resp t s b deconv = Ok (Some y, fz) -> (2 <= length y)%nat.
Proof.
  unfold linear_site_resp. intros H. apply bind_ok in H as (g & _ & H). apply bind_ok in H as (r & _ & H). destruct b as [e|]; [|discriminate].
  apply bind_ok in H as (y' & Ey & H). injection H as -> <-. apply C26_result in Ey as (s' & tab' & H). eapply amplified_long; eauto.
Qed.
Lemma through_ok deconv h sh m p b sh' m' : through_profile deconv h sh m (Inst p) b = (sh', Ok (Some m')) ->
  exists y fz, linear_site_resp (tbl h (o_tbl p)) (sig_at sh (m_accel m)) b deconv = Ok (Some y, fz) /\ made_of sh sh' m' y.
Proof.
  cbn [through_profile]. intros H. destruct (linear_site_resp _ _ _ _) as [[y fz]|e] eqn:E; [|discriminate]. cbn [bind fst] in H.
  apply motion_of_ok in H as (y' & [= ->] & M); [eauto|]. intros y' [= ->]. eapply siteresp_long; eauto.
Qed.
Lemma through_run deconv h sh m p b y fz : linear_site_resp (tbl h (o_tbl p)) (sig_at sh (m_accel m)) b deconv = Ok (Some y, fz) ->
  exists sh' m', through_profile deconv h sh m (Inst p) b = (sh', Ok (Some m')) /\ made_of sh sh' m' y.
Proof.
  intros E. cbn [through_profile]. rewrite E. cbn [bind fst]. apply motion_of_some. eapply siteresp_long; eauto.
Qed.

(** What comes out of a profile has the times and the mean of what goes in, and it is the
    record whose spectrum is multiplied (or divided) by the transfer function of the layers. *)
Theorem C90_profile : forall deconv h sh m p e sh' m',
  let t := tbl h (o_tbl p) in let s := sig_at sh (m_accel m) in
  table_wf t -> (2 <= length s)%nat -> 0 < step_of s ->
  through_profile deconv h sh m (Inst p) (Some e) = (sh', Ok (Some m')) ->
  valid_table t /\ exists y f z tab', made_of sh sh' m' y /\ times y = times s /\ rsum (vals y) = rsum (vals s) /\
    length f = half_len (length s) /\ length z = length f /\
    (forall i, (i < length f)%nat -> nth i f 0 = INR (S i) * (df_of s * (105 / 100)) /\
       nth i z (RtoC 0) = (if e then tf_ro else tf_bh) (2 * PI * nth i f 0) (lays_of t)) /\
    amplified s f (TFComplex z) false true deconv s tab' y.
Proof.
  intros deconv h sh m p e sh' m' t s W L D H. apply through_ok in H as (y & [f z] & E & M). fold t s in E.
  destruct (C26_site_response t s e deconv W L D) as [V G]. split; [apply V; eauto|].
  destruct (G _ _ _ E) as (Lf & Lz & Gf & Gz & EA). destruct (C26_site_response_mean _ _ _ _ _ _ W L D E) as [T S].
  apply C26_result in EA as (s' & tab' & HA). assert (s' = s) as -> by (destruct HA as ((amp & ph & _ & HP) & _); apply HP).
  exists y, f, z, tab'. split; [exact M|]. split; [exact T|]. split; [exact S|]. split; [exact Lf|]. split; [lia|]. split; [|exact HA].
  intros i Hi. rewrite Lf in Hi. split; [apply Gf, Hi|apply Gz, Hi].
Qed.

(** Amplification always succeeds on a valid profile, and only there. *)
Theorem C90_amplify_accepts_iff : forall h sh m p e,
  let t := tbl h (o_tbl p) in let s := sig_at sh (m_accel m) in
  table_wf t -> (2 <= length s)%nat -> 0 < step_of s ->
  (exists sh' m', gm_amplify h sh m (Inst p) (Some e) = (sh', Ok (Some m'))) <-> valid_table t.
Proof.
  intros h sh m p e t s W L D. split.
  - intros (sh' & m' & H). eapply C90_profile in H; [apply H|assumption..].
  - intros V. destruct (C26_site_response t s e false W L D) as [VV G]. destruct (proj2 VV V) as ([y [f z]] & E).
    destruct (G _ _ _ E) as (Lf & Lz & Gf & _ & EA).
    destruct y as [y|]; [destruct (through_run false h sh m p (Some e) y (f, z) E) as (sh' & m' & E' & _); eauto|].
    exfalso. assert (P : polar_of f (TFComplex z) (map Cmod z) (robust_unwrap (map carg z) PI)) by (cbn; repeat split; congruence).
    destruct (df_pos s L D) as [DP _]. destruct (half_len_bounds _ L) as [Hh _].
    assert (NE : f <> []) by (intros ->; cbn in Lf; lia).
    destruct (C26_amplifies s f (TFComplex z) false _ _ P L ltac:(lra) NE) as (y & Ey); [|congruence].
    right. exists (nth (half_len (length s) - 1) f 0). split; [apply nth_In; lia|]. rewrite Gf by lia.
    replace (S (half_len (length s) - 1)) with (half_len (length s)) by lia. unfold fmax_of. pose proof (pos_INR (half_len (length s))). nra.
Qed.

(** Refusals, which change nothing: an argument that is not a profile, a boundary that is
    neither word, and any table the profile check refuses. *)
Theorem C90_profile_errors : forall deconv h sh m,
  (forall p b, (forall q, p <> Inst q) -> through_profile deconv h sh m p b = (sh, Err TypeError)) /\
  (forall p, let t := tbl h (o_tbl p) in let s := sig_at sh (m_accel m) in table_wf t -> (2 <= length s)%nat -> 0 < step_of s ->
     (forall b e, check_Vs_profile_format (as_pyobj t) = Err e -> through_profile deconv h sh m (Inst p) b = (sh, Err e)) /\
     (valid_table t -> through_profile deconv h sh m (Inst p) None = (sh, Err ValueError))).
Proof.
  intros deconv h sh m. split.
  - intros [p| |] b H; [exfalso; apply (H p eq_refl)|reflexivity..].
  - intros p t s W L D. split.
    + intros b e He. destruct (C26_site_response_errors t s b deconv W) as (_ & _ & H & _). cbn [through_profile]. fold t s. rewrite (H L D e He). reflexivity.
    + intros V. destruct (C26_site_response_errors t s None deconv W) as (_ & _ & _ & H). cbn [through_profile]. fold t s. rewrite (H L D V). reflexivity.
Qed.

(** The transfer function used depends on the profile and on the times of the record only. *)
Lemma siteresp_same t s1 s2 e d1 d2 y1 y2 fz1 fz2 : table_wf t -> times s1 = times s2 -> (2 <= length s1)%nat -> 0 < step_of s1 ->
  linear_site_resp t s1 (Some e) d1 = Ok (y1, fz1) -> linear_site_resp t s2 (Some e) d2 = Ok (y2, fz2) -> fz1 = fz2.
Proof.
  intros W T L D E1 E2. destruct fz1 as [f1 z1], fz2 as [f2 z2]. destruct (same_grid _ _ T) as (G1 & G2 & G3 & G4).
  assert (L2 : (2 <= length s2)%nat) by lia. assert (D2 : 0 < step_of s2) by (unfold step_of in *; rewrite <- T; exact D).
  destruct (proj2 (C26_site_response t s1 e d1 W L D) _ _ _ E1) as (A1 & A2 & A3 & A4 & _).
  destruct (proj2 (C26_site_response t s2 e d2 W L2 D2) _ _ _ E2) as (B1 & B2 & B3 & B4 & _).
  rewrite <- G1, <- G3 in *. 
  assert (F : f1 = f2) by (apply (nth_ext _ _ 0 0); [congruence|]; intros i Hi; rewrite A3, B3 by congruence; reflexivity). subst f2. f_equal.
  apply (nth_ext _ _ (RtoC 0) (RtoC 0)); [congruence|]. intros i Hi. rewrite A4, B4 by congruence. reflexivity.
Qed.

(** Deconvolving the amplified motion by the same profile and boundary gives back the
    acceleration, when no factor vanishes; likewise amplifying the deconvolved motion. *)
Theorem C90_profile_inverse : forall deconv h sh m p e sh1 m1,
  let t := tbl h (o_tbl p) in let s := sig_at sh (m_accel m) in
  table_wf t -> (2 <= length s)%nat -> 0 < step_of s ->
  through_profile deconv h sh m (Inst p) (Some e) = (sh1, Ok (Some m1)) ->
  (forall f z tab' y k, amplified s f (TFComplex z) false true deconv s tab' y -> 
     (forall i, (i < length z)%nat -> nth i z (RtoC 0) = (if e then tf_ro else tf_bh) (2 * PI * nth i f 0) (lays_of t)) ->
     (k < length s)%nat -> factor (length s) (df_of s) tab' k <> RtoC 0) ->
  exists sh2 m2, through_profile (negb deconv) h sh1 m1 (Inst p) (Some e) = (sh2, Ok (Some m2)) /\ sig_at sh2 (m_accel m2) = s.
Proof.
  intros deconv h sh m p e sh1 m1 t s W L D H HZ. pose proof H as H0. apply through_ok in H as (y & [f z] & E & M). fold t s in E.
  destruct (C90_profile _ _ _ _ _ _ _ _ W L D H0) as (V & _).
  destruct (C26_site_response_mean _ _ _ _ _ _ W L D E) as [T _].
  destruct (C26_site_response t s e deconv W L D) as [_ G]. destruct (G _ _ _ E) as (Lf & Lz & Gf & Gz & EA).
  apply C26_result in EA as (s' & tab' & HA). assert (s' = s) as -> by (destruct HA as ((amp & ph & _ & HP) & _); apply HP).
  assert (Ly : length y = length s) by (rewrite <- (times_length y), T, times_length; reflexivity).
  assert (Dy : 0 < step_of y) by (unfold step_of in *; rewrite T; exact D).
  assert (HZ' : forall k, (k < length s)%nat -> factor (length s) (df_of s) tab' k <> RtoC 0).
  { intros k Hk. eapply HZ; [exact HA| |exact Hk]. intros i Hi. apply Gz. cbv zeta in Lz. lia. }
  destruct (C26_round_trip _ _ _ _ _ _ _ _ HA HZ') as (_ & EB & _).
  destruct (C26_site_response t y e (negb deconv) W ltac:(lia) Dy) as [VV G2]. destruct (proj2 VV V) as ([x [f2 z2]] & E2).
  assert (F2 : (f2, z2) = (f, z)) by (symmetry; apply (siteresp_same t s y e deconv (negb deconv) (Some y) x _ _ W (eq_sym T) L D E E2)). injection F2 as -> ->.
  destruct (G2 _ _ _ E2) as (_ & _ & _ & _ & EC). assert (x = Some s) as -> by congruence.
  destruct (through_run (negb deconv) h sh1 m1 p (Some e) s (f, z)) as (sh2 & m2 & E3 & M2); [rewrite (mo_accel _ _ _ _ M); exact E2|].
  exists sh2, m2. split; [exact E3|apply (mo_accel _ _ _ _ M2)].
Qed.

(** On bare rock the motion comes out as it goes in. *)
Theorem C90_bare_rock : forall deconv h sh m p e,
  let t := tbl h (o_tbl p) in let s := sig_at sh (m_accel m) in
  table_wf t -> valid_table t -> length (t_rows t) = 1%nat -> (2 <= length s)%nat -> 0 < step_of s ->
  exists sh' m', through_profile deconv h sh m (Inst p) (Some e) = (sh', Ok (Some m')) /\ made_of sh sh' m' s.
Proof. intros deconv h sh m p e t s W V R L D. destruct (C26_bare_rock t s e deconv W V R L D) as (fz & E). eapply through_run; eauto. Qed.

(** ** C91 *)

(** The depth used: the one given, or that of the regional relation. *)
Definition depth_of (v : R) (z1 : option R) : R :=
  match z1 with Some z => z | None => 140511 / 1000 * exp (- (303 / 100000) * v) end.
Definition in_range (v z p : R) : Prop := 175 <= v <= 950 /\ 8 <= z <= 900 /\ 1/100 <= p <= 15/10.
Definition site_at (v z p : R) : site := mksite (Fin v) (Fin z) (Fin p).
Definition given_depth (z1 : option R) : option parg := match z1 with Some z => Some (PNum (Fin z)) | None => None end.

Lemma clamp_range lo hi x : lo < hi -> lo <= clamp lo hi x <= hi.
Proof. intros H. unfold clamp, Rmin, Rmax. destruct (Rle_dec lo x), (Rle_dec hi _); lra. Qed.
Lemma clamp_id lo hi x : lo <= x <= hi -> clamp lo hi x = x.
Proof. intros H. unfold clamp, Rmin, Rmax. destruct (Rle_dec lo x), (Rle_dec hi _); lra. Qed.

(** When is the object made, and what does it hold?  In strict mode the three values must lie
    in the tables; in lenient mode the nearest values in the tables are used for the factors,
    while the attributes keep the values given. *)
Theorem C91_constructor : forall m v z1 meth lenient a,
  let z := depth_of v z1 in let p := m_pga m / (981 / 100) in
  adjust_init (Inst m) (PNum (Fin v)) (given_depth z1) meth lenient = Ok a <->
  (meth = nl_hh \/ meth = eq_hh) /\
  (lenient = false -> in_range v z p /\ ~ too_deep v z /\ ad_site a = site_at v z p) /\
  (lenient = true -> let v' := clamp 175 950 v in let z' := clamp 8 900 z in
     ~ too_deep v' z' /\ ad_site a = site_at v' z' (clamp (1/100) (15/10) p)) /\
  ad_motion a = m /\ ad_Vs30 a = Fin v /\ ad_z1 a = Fin z /\ ad_PGA a = p /\ ad_method a = meth.
Proof.
  intros m v z1 meth lenient a z p.
  assert (E : adjust_init (Inst m) (PNum (Fin v)) (given_depth z1) meth lenient =
    match meth with nl_hh | eq_hh => let! s := site_new (PNum (Fin v)) (PNum (Fin z)) (PNum (Fin p)) lenient in Ok (mkadj m (Fin v) (Fin z) p s meth) | _ => Err ValueError end).
  { destruct z1 as [z'|]; cbn [given_depth adjust_init z1_from]; destruct meth; reflexivity. }
  rewrite E. clear E.
  assert (S : forall lenient' s, site_new (PNum (Fin v)) (PNum (Fin z)) (PNum (Fin p)) lenient' = Ok s <->
    (lenient' = false -> in_range v z p /\ ~ too_deep v z /\ s = site_at v z p) /\
    (lenient' = true -> ~ too_deep (clamp 175 950 v) (clamp 8 900 z) /\ s = site_at (clamp 175 950 v) (clamp 8 900 z) (clamp (1/100) (15/10) p))).
  { assert (ST : forall v z p s, site_new (PNum (Fin v)) (PNum (Fin z)) (PNum (Fin p)) false = Ok s <-> in_range v z p /\ ~ too_deep v z /\ s = site_at v z p).
    { clear. intros v z p s. destruct (C31_strict v z p) as [S1 S2]. unfold in_range. split.
      - intros H. assert (K : (175 <= v <= 950 /\ 8 <= z <= 900 /\ 1/100 <= p <= 15/10 /\ ~ too_deep v z) \/ ~ (175 <= v <= 950 /\ 8 <= z <= 900 /\ 1/100 <= p <= 15/10 /\ ~ too_deep v z)) by (apply Classical_Prop.classic).
        destruct K as [K|K]; [|rewrite (S2 K) in H; discriminate]. rewrite (S1 K) in H. injection H as <-. split; [tauto|]. split; [tauto|reflexivity].
      - intros ((A & B & C) & D & ->). apply S1. tauto. }
    intros [|] s.
    - rewrite C31_lenient, ST. pose proof (clamp_range 175 950 v ltac:(lra)). pose proof (clamp_range 8 900 z ltac:(lra)). pose proof (clamp_range (1/100) (15/10) p ltac:(lra)).
      split; [intros (_ & A & B); split; [discriminate|auto]|intros [_ A]; destruct (A eq_refl); split; [repeat split; tauto|auto]].
    - rewrite ST. split; [intros H; split; [auto|discriminate]|intros [H _]; auto]. }
  split.
  - intros H. assert (M : meth = nl_hh \/ meth = eq_hh) by (destruct meth; auto; discriminate). split; [exact M|].
    assert (H' : (let! s := site_new (PNum (Fin v)) (PNum (Fin z)) (PNum (Fin p)) lenient in Ok (mkadj m (Fin v) (Fin z) p s meth)) = Ok a) by (destruct M; subst meth; exact H).
    apply bind_ok in H' as (s & Es & H'). injection H' as <-. cbn. apply S in Es as [E1 E2]. split; [exact E1|]. split; [exact E2|]. repeat split.
  - intros (M & H1 & H2 & Q1 & Q2 & Q3 & Q4 & Q5).
    assert (Es : site_new (PNum (Fin v)) (PNum (Fin z)) (PNum (Fin p)) lenient = Ok (ad_site a)) by (apply S; split; assumption).
    rewrite Es. destruct a; cbn in *. subst. destruct M; subst; reflexivity.
Qed.

(** Everything else is refused: TypeError for an argument of the wrong type, whatever the
    others are; otherwise ValueError. *)
Theorem C91_constructor_errors : forall m v z1 meth lenient e,
  adjust_init m v z1 meth lenient = Err e ->
  ((forall x, m <> Inst x) \/ v = POther \/ z1 = Some POther) /\ e = TypeError \/
  ((exists x, m = Inst x) /\ v <> POther /\ z1 <> Some POther) /\ e = ValueError.
Proof.
  intros m v z1 meth lenient e H. destruct m as [m| |]; [|injection H as <-; left; split; [left; discriminate|reflexivity]..].
  destruct v as [v|]; [|injection H as <-; left; auto]. destruct z1 as [[z1|]|]; [| injection H as <-; left; auto|];
   (right; split; [split; [eauto|]; split; discriminate|]); cbn [adjust_init] in H;
   (assert (S : forall a b c l e, site_new (PNum a) (PNum b) (PNum c) l = Err e -> e = ValueError) by
     (clear; intros a b c l e; unfold site_new; repeat match goal with |- context [if ?x then Err _ else _] => destruct x end; congruence));
   (destruct meth; try (injection H as <-; reflexivity)); (destruct (site_new _ _ _ _) eqn:E; [discriminate|]; cbn in H; injection H as <-; eapply S; eauto).
Qed.

(** A velocity that is not a finite number: NaN passes both modes and is used as it is
    (finding); an infinite one is refused in strict mode, and taken as the nearest value of the
    tables in lenient mode, as is the depth of the relation, 0 or infinite. *)
Theorem C91_not_finite : forall m meth lenient, meth = nl_hh \/ meth = eq_hh -> 1/100 <= m_pga m / (981 / 100) <= 15/10 ->
  let p := m_pga m / (981 / 100) in
  adjust_init (Inst m) (PNum NaN) None meth lenient = Ok (mkadj m NaN NaN p (mksite NaN NaN (Fin p)) meth) /\
  adjust_init (Inst m) (PNum PInf) None meth lenient =
    (if lenient then Ok (mkadj m PInf (Fin 0) p (mksite (Fin 950) (Fin 8) (Fin p)) meth) else Err ValueError) /\
  adjust_init (Inst m) (PNum NInf) None meth lenient =
    (if lenient then Ok (mkadj m NInf PInf p (mksite (Fin 175) (Fin 900) (Fin p)) meth) else Err ValueError).
Proof.
  intros m meth lenient M Hp p.
  assert (E : forall v, adjust_init (Inst m) (PNum v) None meth lenient =
    let! s := site_new (PNum v) (PNum (z1_from v)) (PNum (Fin p)) lenient in Ok (mkadj m v (z1_from v) p s meth)) by (intros v; destruct M; subst meth; reflexivity).
  rewrite !E. assert (P1 : Rltb p (1/100) = false) by (destruct (Rltb_spec p (1/100)); [unfold p in *; lra|reflexivity]). assert (P2 : Rltb (15/10) p = false) by (destruct (Rltb_spec (15/10) p); [unfold p in *; lra|reflexivity]).
  assert (Z : Rltb 0 8 = true) by (destruct (Rltb_spec 0 8); [reflexivity|lra]).
  assert (B1 : bad_combination PInf (Fin 0) = false).
  { unfold bad_combination. cbn [nltb andb]. repeat match goal with |- context [Rltb ?a 0] => destruct (Rltb_spec a 0); [exfalso; lra|] end. reflexivity. }
  assert (B2 : bad_combination NInf PInf = false) by reflexivity. assert (B3 : bad_combination NaN NaN = false) by reflexivity.
  unfold site_new, range_check. cbn [z1_from]. rewrite B1, B2, B3. cbn [nltb]. rewrite P1, P2, Z. repeat split; destruct lenient; reflexivity.
Qed.

(** Without a depth the relation supplies one, which is never too deep for the velocity; *)
Lemma exp_lower x n : 0 <= x -> (0 < n)%nat -> (1 + x / INR n) ^ n <= exp x.
Proof.
  intros Hx Hn. assert (HN : 0 < INR n) by (apply lt_0_INR; exact Hn).
  assert (E : exp x = exp (x / INR n) ^ n).
  { rewrite <- Rpower_pow by apply exp_pos. unfold Rpower. rewrite ln_exp. f_equal. field. lra. }
  rewrite E. assert (P : 0 <= x / INR n) by (apply Rmult_le_pos; [lra|apply Rlt_le, Rinv_0_lt_compat; lra]).
  apply pow_incr. split; [lra|]. destruct (Req_dec (x / INR n) 0) as [->|N]; [rewrite exp_0; lra|]. left. apply exp_ineq1. lra.
Qed.
Lemma relation_bound a v k q : a <= v -> 0 <= a -> (0 < k)%nat -> 140511 / 1000 <= q * (1 + 303 / 100000 * a / INR k) ^ k ->
  140511 / 1000 * exp (- (303 / 100000) * v) <= q.
Proof.
  intros Hv Ha Hk Hq. pose proof (exp_lower (303 / 100000 * a) k ltac:(lra) Hk) as L.
  replace (- (303 / 100000) * v) with (- (303 / 100000 * v)) by ring. rewrite exp_Ropp.
  assert (M : exp (303 / 100000 * a) <= exp (303 / 100000 * v)).
  { destruct (Req_dec a v) as [->|N]; [lra|]. left. apply exp_increasing. lra. }
  assert (P : 0 < (1 + 303 / 100000 * a / INR k) ^ k).
  { apply pow_lt. assert (0 < INR k) by (apply lt_0_INR; exact Hk). assert (0 <= 303 / 100000 * a / INR k) by (apply Rmult_le_pos; [lra|apply Rlt_le, Rinv_0_lt_compat; lra]). lra. }
  pose proof (exp_pos (303 / 100000 * v)). assert (0 <= q) by nra.
  apply (Rmult_le_reg_r (exp (303 / 100000 * v))); [assumption|]. rewrite Rmult_assoc, Rinv_l by lra. rewrite Rmult_1_r. nra.
Qed.
Theorem C91_default_depth : forall v, 175 <= v -> ~ too_deep v (depth_of v None).
Proof.
  intros v Hv H. cbn [depth_of] in H. unfold too_deep, limits_table in H.
  assert (B1 : 140511 / 1000 * exp (- (303 / 100000) * v) <= 140511 / 1000) by (apply (relation_bound 0 v 1); [lra|lra|lia|cbn; lra]).
  assert (B2 : 650 < v -> 140511 / 1000 * exp (- (303 / 100000) * v) <= 36).
  { intros. apply (relation_bound 650 v 4); [lra|lra|lia|cbn; lra]. }
  assert (B3 : 850 < v -> 140511 / 1000 * exp (- (303 / 100000) * v) <= 16).
  { intros. apply (relation_bound 850 v 8); [lra|lra|lia|cbn; lra]. }
  repeat match goal with H : Exists _ (_ :: _) |- _ => apply Exists_cons in H; destruct H as [[Hx Hy]|H]; cbn [fst snd] in *; [first [lra|specialize (B2 ltac:(lra)); lra|specialize (B3 ltac:(lra)); lra]|] end. inversion H.
Qed.

(** ... but which falls short of the tables for the stiffest sites they cover: without a depth,
    sites of 948 to 950 m/s, inside the tables, are refused in strict mode. *)
Lemma pow1024 (x : R) : x ^ 1024 = ((((((((((x ^ 2) ^ 2) ^ 2) ^ 2) ^ 2) ^ 2) ^ 2) ^ 2) ^ 2) ^ 2).
Proof. rewrite <- !pow_mult. reflexivity. Qed.
Lemma sq_lower a b x : 0 <= a -> a <= x -> b <= a * a -> b <= x ^ 2.
Proof. intros. cbn. nra. Qed.
Lemma relation_short v : 948 <= v -> depth_of v None < 8.
Proof.
  intros Hv. cbn [depth_of]. apply Rle_lt_trans with (79999 / 10000); [|lra].
  apply (relation_bound 948 v 1024); [lra|lra|lia|].
  rewrite INR_IZR_INZ. change (Z.of_nat _) with 1024%Z. set (x := 1 + 303 / 100000 * 948 / IZR 1024).
  assert (K : 176 / 10 <= x ^ 1024); [|lra]. rewrite pow1024.
  assert (x0 : 10028051 / 10000000 <= x) by (unfold x; lra). clearbody x.
  apply (sq_lower (41954 / 10000)); [lra| |lra].
  apply (sq_lower (204827 / 100000)); [lra| |lra].
  apply (sq_lower (143118 / 100000)); [lra| |lra].
  apply (sq_lower (119632 / 100000)); [lra| |lra].
  apply (sq_lower (1093766 / 1000000)); [lra| |lra].
  apply (sq_lower (1045833 / 1000000)); [lra| |lra].
  apply (sq_lower (1022660 / 1000000)); [lra| |lra].
  apply (sq_lower (1011267 / 1000000)); [lra| |lra].
  apply (sq_lower (1005618 / 1000000)); [lra| |lra].
  apply (sq_lower (10028051 / 10000000)); [lra|exact x0|lra].
Qed.
Theorem C91_default_depth_refused : forall m v meth, 948 <= v -> adjust_init (Inst m) (PNum (Fin v)) None meth false = Err ValueError.
Proof.
  intros m v meth Hv. destruct (adjust_init (Inst m) (PNum (Fin v)) None meth false) as [a|e] eqn:E.
  - exfalso. apply (C91_constructor m v None meth false a) in E as (_ & H & _). destruct (H eq_refl) as ((_ & Z & _) & _). pose proof (relation_short v Hv). lra.
  - apply C91_constructor_errors in E as [[[N|[N|N]] _]|[_ ->]]; [exfalso; eapply N; reflexivity|discriminate..|reflexivity].
Qed.

(** *** The adjusted motion *)
Section C91.
Variable table : what -> string -> option (list (list R)).
Variable axis : what -> string -> option (list R).
Variable gd : list (R * R * R) -> list R -> R * R * R -> num.

Definition factor_of (q : R * num) : R := match snd q with Fin r => r | _ => 0 end.
Definition all_finite (l : list (R * num)) : Prop := forall q, In q l -> exists r, snd q = Fin r.

Lemma finite_rows_spec l : (all_finite l -> finite_rows l = Some (map (fun q => (fst q, RtoC (factor_of q))) l)) /\ (forall t, finite_rows l = Some t -> all_finite l).
Proof.
  induction l as [|[f x] l [IH1 IH2]]; [split; [reflexivity|intros t _ q []]|]. split.
  - intros H. cbn [finite_rows]. destruct (H (f, x) (or_introl eq_refl)) as (r & Hr). cbn in Hr. subst x. rewrite IH1 by (intros q Hq; apply H; right; exact Hq). reflexivity.
  - intros t H q [<-|Hq]; cbn [finite_rows] in H.
    + destruct x; try discriminate. cbn. eauto.
    + destruct x; try discriminate. destruct (finite_rows l) as [t'|] eqn:E; [|discriminate]. eapply IH2; eauto.
Qed.
Lemma factor_spectrum_some l s : factor_spectrum l = Ok (Some s) ->
  all_finite l /\ (2 <= length l)%nat /\ fs_freq s = map fst l /\ map Re (fs_spec s) = map factor_of l.
Proof.
  unfold factor_spectrum. intros H. destruct (finite_rows l) as [t|] eqn:E; [|discriminate]. destruct (finite_rows_spec l) as [F1 F2]. pose proof (F2 _ E) as F. split; [exact F|].
  rewrite (F1 F) in E. injection E as <-. apply bind_ok in H as (s' & Es & H). injection H as ->.
  apply C84_attributes in Es as (rows & d & (L & -> & _) & _ & _ & _ & -> & -> & _). rewrite map_length in L. split; [exact L|]. rewrite !map_map. split; reflexivity.
Qed.
Lemma factor_spectrum_ok l : all_finite l -> (2 <= length l)%nat -> exists s, factor_spectrum l = Ok (Some s).
Proof.
  intros F L. unfold factor_spectrum. rewrite (proj1 (finite_rows_spec l) F). set (rows := map _ l).
  assert (LR : (2 <= length rows)%nat) by (unfold rows; rewrite map_length; exact L).
  destruct (fs_init (CD2 rows) None None) as [s|e] eqn:E; [cbn [bind]; eauto|]. apply C84_errors in E. destruct rows as [|r [|r' rows']]; cbn in LR; [lia|lia|destruct E].
Qed.

(** A motion that comes out is the record whose spectrum is multiplied by the amplification
    factors and turned by the phase factors of the site, at the frequencies of the former. *)
Theorem C91_run : forall sh a sh' m', adjust_run table axis gd sh a = (sh', Ok (Some m')) ->
  let s := sig_at sh (m_accel (ad_motion a)) in
  exists ta tp tab' y, get_amplification table axis gd (ad_site a) (ad_method a) true = Ok ta /\ get_phase_shift table axis gd (ad_site a) eq_hh = Ok tp /\
    all_finite ta /\ all_finite tp /\ (2 <= length ta)%nat /\ length tp = length ta /\
    amplified s (map fst ta) (TFPolar (map factor_of ta) (map factor_of tp)) false true false s tab' y /\
    made_of sh sh' m' y /\ times y = times s.
Proof.
  intros sh a sh' m' H s. unfold adjust_run in H. fold s in H.
  assert (HL : forall f tf y, amplify_motion s f tf false true false = Ok (Some y) -> (2 <= length y)%nat).
  { intros f tf y E. apply C26_result in E as (s' & tab' & E). eapply amplified_long; eauto. }
  apply motion_of_ok in H as (y & H & M).
  2:{ intros y E. apply bind_ok in E as (ta & _ & E). apply bind_ok in E as (af & _ & E). apply bind_ok in E as (tp & _ & E). apply bind_ok in E as (pf & _ & E).
      destruct af, pf; try discriminate. destruct (_ || _)%bool; [|discriminate]. eapply HL; eauto. }
  apply bind_ok in H as (ta & Ea & H). apply bind_ok in H as (af & Eaf & H). apply bind_ok in H as (tp & Ep & H). apply bind_ok in H as (pf & Epf & H).
  destruct af as [af|]; [|discriminate]. destruct pf as [pf|]; [|discriminate].
  apply factor_spectrum_some in Eaf as (Fa & La & Qa1 & Qa2), Epf as (Fp & Lp & Qp1 & Qp2). rewrite Qa1, Qa2, Qp1, Qp2, !map_length in H.
  destruct (Nat.eqb_spec (length ta) (length tp)) as [EL|NL].
  - cbn [orb] in H. apply C26_result in H as (s' & tab' & HA). assert (s' = s) as -> by (destruct HA as ((amp & ph & _ & HP) & _); apply HP).
    exists ta, tp, tab', y. do 5 (split; [assumption|]). split; [congruence|]. split; [exact HA|]. split; [exact M|]. apply HA.
  - destruct (Nat.eqb_spec (length ta) 1); [lia|]. destruct (Nat.eqb_spec (length tp) 1); [lia|]. discriminate.
Qed.

(** For a site in the tables it always comes out, given complete tables over positive
    frequencies and an interpolation between the neighbours. *)
Theorem C91_run_succeeds : forall sh a n, linear_on_boxes gd -> (ad_method a = nl_hh \/ ad_method a = eq_hh) ->
  rows_ok table axis Amplif true (ad_method a) n -> rows_ok table axis Phase true eq_hh n -> (2 <= n)%nat ->
  (forall V Z x, In V Vs30_array -> In Z z1_array -> axis Amplif (x_filename Amplif true V Z) = Some x -> Forall (fun f => 0 < f) x) ->
  (exists v z p, in_range v z p /\ ad_site a = site_at v z p) ->
  let s := sig_at sh (m_accel (ad_motion a)) in (2 <= length s)%nat -> step_of s <> 0 ->
  exists sh' m', adjust_run table axis gd sh a = (sh', Ok (Some m')) /\ m_npts m' = length s.
Proof.
  intros sh a n GD Hm RA RP Hn POS (v & z & p & (Rv & Rz & Rp) & ES) s L D.
  destruct (results_ok table axis gd Amplif true (ad_method a) n v z p) as (xa & ya & V & Z & Ea & Lxa & Lya & IV & IZ & x0 & Ax & Hx); try assumption; [destruct Hm as [-> | ->]; discriminate|].
  destruct (results_ok table axis gd Phase true eq_hh n v z p) as (xp & yp & V' & Z' & Ep & Lxp & Lyp & _); try assumption; [discriminate|].
  cbv iota in Lxa, Lxp, Hx.
  assert (FIN : forall w m x y, get_results table axis gd w (mksite (Fin v) (Fin z) (Fin p)) true m = Ok (x, y) -> length y = length x -> all_finite (combine x y)).
  { intros w m x y E Ly q Hq. destruct q as [f u]. apply in_combine_r in Hq. apply (In_nth _ _ NaN) in Hq as (k & Hk & <-).
    destruct (C30_between_neighbours table axis gd GD w true m v z p x y k Rv Rz Rp E Hk) as (c & r & _ & Er & _). cbn. eauto. }
  pose proof (FIN _ _ _ _ Ea Lya) as Fa. pose proof (FIN _ _ _ _ Ep Lyp) as Fp.
  assert (GA : get_amplification table axis gd (ad_site a) (ad_method a) true = Ok (combine xa ya)).
  { rewrite ES. unfold get_amplification, site_at. destruct Hm as [E | E]; rewrite E in *; rewrite Ea; cbn [bind]; rewrite Lya, Nat.eqb_refl; reflexivity. }
  assert (GP : get_phase_shift table axis gd (ad_site a) eq_hh = Ok (combine xp yp)).
  { rewrite ES. unfold get_phase_shift, site_at. rewrite Ep. cbn [bind]. rewrite Lyp, Nat.eqb_refl. reflexivity. }
  assert (LA : length (combine xa ya) = Nat.min 140 n) by (rewrite combine_length; lia).
  assert (LP : length (combine xp yp) = Nat.min 140 n) by (rewrite combine_length; lia).
  destruct (factor_spectrum_ok _ Fa ltac:(lia)) as (af & Eaf). destruct (factor_spectrum_ok _ Fp ltac:(lia)) as (pf & Epf).
  pose proof (factor_spectrum_some _ _ Eaf) as (_ & _ & Qa1 & Qa2). pose proof (factor_spectrum_some _ _ Epf) as (_ & _ & Qp1 & Qp2).
  assert (MF : map fst (combine xa ya) = xa).
  { clear -Lya. revert ya Lya. induction xa as [|x xa IH]; intros [|y ya] Ly; try discriminate; [reflexivity|]. cbn. f_equal. apply IH. cbn in Ly. lia. }
  assert (NE : xa <> []) by (intros NE; rewrite NE in Lxa; change (@length R []) with 0%nat in Lxa; lia).
  destruct (C26_amplifies s xa (TFPolar (map factor_of (combine xa ya)) (map factor_of (combine xp yp))) false (map factor_of (combine xa ya)) (map factor_of (combine xp yp))) as (y & Ey); try assumption.
  { cbn. rewrite !map_length. repeat split; lia. }
  { left. assert (P : Forall (fun f => 0 < f) xa).
    { specialize (POS V Z x0 IV IZ Ax). rewrite Hx. rewrite Forall_forall in POS |- *. intros f Hf. apply POS. rewrite <- (firstn_skipn 140 x0). apply in_app_iff. left. exact Hf. }
    rewrite Forall_forall in P. assert (I : In (last xa 0) xa) by (destruct (exists_last NE) as (l & b & ->); rewrite last_last; apply in_app_iff; right; left; reflexivity). specialize (P _ I). lra. }
  assert (ER : adjust_run table axis gd sh a = motion_of sh (Ok (Some y))).
  { unfold adjust_run. rewrite GA. cbn [bind]. rewrite Eaf. cbn [bind]. rewrite GP. cbn [bind]. rewrite Epf. cbn [bind]. rewrite Qa1, Qa2, Qp1, Qp2, MF, map_length, LP, Lxa, Nat.eqb_refl. cbn [orb].
    fold s. rewrite Ey. reflexivity. }
  rewrite ER. pose proof Ey as Ey'. apply C26_result in Ey' as (s' & tab' & HA).
  destruct (motion_of_some sh y (amplified_long _ _ _ _ _ _ _ _ _ HA)) as (sh' & m' & E & M). exists sh', m'. split; [exact E|]. rewrite (mo_npts _ _ _ _ M).
  destruct HA as ((amp & ph & _ & HP) & LL & _). destruct HP as (_ & _ & _ & -> & _). exact LL.
Qed.

(** Where every factor in the tables is one and every phase zero, the motion is unchanged. *)
Theorem C91_no_site_effect : forall sh a sh' m', linear_on_boxes gd ->
  (exists v z p, in_range v z p /\ ad_site a = site_at v z p) ->
  (forall f t r x, table Amplif f = Some t -> In r t -> In x r -> x = 1) ->
  (forall f t r x, table Phase f = Some t -> In r t -> In x r -> x = 0) ->
  adjust_run table axis gd sh a = (sh', Ok (Some m')) ->
  sig_at sh' (m_accel m') = sig_at sh (m_accel (ad_motion a)).
Proof.
  intros sh a sh' m' GD (v & z & p & (Rv & Rz & Rp) & ES) T1 T0 H. apply C91_run in H as (ta & tp & tab' & y & Ea & Ep & Fa & Fp & La & Lp & HA & M & _).
  rewrite (mo_accel _ _ _ _ M). assert (Ey := amp_run _ _ _ _ _ _ _ _ _ HA).
  assert (PO : polar_of (map fst ta) (TFPolar (map factor_of ta) (map factor_of tp)) (map factor_of ta) (map factor_of tp)) by (cbn; rewrite !map_length; repeat split; congruence).
  assert (VAL : forall w m x y' c, get_results table axis gd w (mksite (Fin v) (Fin z) (Fin p)) true m = Ok (x, y') -> length x = length y' ->
    (forall f t r u, table w f = Some t -> In r t -> In u r -> u = c) -> forall q, In q (combine x y') -> factor_of q = c).
  { intros w m x y' c E Ly HT [f u] Hq. apply in_combine_r in Hq. apply (In_nth _ _ NaN) in Hq as (k & Hk & Eu).
    destruct (results_spec table axis gd GD w true m v z p x y' Rv Rz Rp E) as (i0 & j0 & k0 & ys & wt & _ & _ & _ & _ & _ & _ & _ & F & BC & LL & SL & K).
    destruct BC as (LW & Pos & Sum & _). unfold factor_of. cbn [snd]. rewrite <- Eu, (K k Hk).
    assert (LC : length wt = length (column ys k)) by (unfold column; rewrite map_length, <- (Forall2_length _ _ _ F), LW, map_length; reflexivity).
    assert (QB := fun H => wsum_bounds wt (column ys k) c c LC Pos H). rewrite Sum in QB. enough (c * 1 <= wsum wt (column ys k) <= c * 1) by lra. apply QB.
    intros t Ht. apply column_in in Ht as (r & Hr & ->). destruct (Forall2_in_r _ _ _ _ F Hr) as (b & Hb & Et). unfold tab in Et.
    destruct (table w _) as [tt|] eqn:ET; [|discriminate]. apply nth_error_In in Et.
    assert (LR : length r = length (hd [] ys)).
    { destruct ys as [|y0 ys]; [destruct Hr|]. cbn [hd]. destruct Hr as [->|Hr]; [reflexivity|]. cbn [same_length] in SL. rewrite forallb_forall in SL. apply Nat.eqb_eq, SL, Hr. }
    rewrite (HT _ _ _ (nth k r 0) ET Et) by (apply nth_In; lia). lra. }
  refine (C26_identity _ _ _ _ _ _ _ PO _ _ Ey).
  - intros x Hx. apply in_map_iff in Hx as (q & <- & Hq). unfold get_amplification in Ea. rewrite ES in Ea.
    assert (Ea' : exists m, (let! r := get_results table axis gd Amplif (site_at v z p) true m in let '(x, y) := r in if Nat.eqb (length x) (length y) then Ok (combine x y) else Err ValueError) = Ok ta) by (destruct (ad_method a); try discriminate; eauto).
    destruct Ea' as (m & Ea'). apply bind_ok in Ea' as ([x y'] & Er & Ea'). destruct (Nat.eqb_spec (length x) (length y')) as [EL|]; [|discriminate]. injection Ea' as <-.
    apply (VAL Amplif m x y' 1 Er EL); [|exact Hq]. intros f t r u Ht Hr Hu. eapply T1; eauto.
  - intros x Hx. apply in_map_iff in Hx as (q & <- & Hq). unfold get_phase_shift in Ep. rewrite ES in Ep.
    apply bind_ok in Ep as ([x y'] & Er & Ep). destruct (Nat.eqb_spec (length x) (length y')) as [EL|]; [|discriminate]. injection Ep as <-.
    apply (VAL Phase eq_hh x y' 0 Er EL); [|exact Hq]. intros f t r u Ht Hr Hu. eapply T0; eauto.
Qed.
End C91.

(** ** Instances: a record of three samples, a motion object made of it, a spectrum that doubles
    it, a layered profile, and a site of 300 m/s over 100 m. *)
Definition rec3 : signal := [(0, 1); (1, 3); (2, 2)].
Lemma rec3_step : step_of rec3 = 1. Proof. unfold step_of, rec3; cbn; ring. Qed.
Lemma rec3_motion : exists sh m, gm_init [rec3] 0 U_m T_accel = (sh, Ok m) /\ sig_at sh (m_accel m) = rec3 /\ m_pga m = 3.
Proof.
  destruct (proj2 (proj1 (C71_constructor_accepts_iff [rec3] 0 U_m T_accel ltac:(cbn; lia)))) as (sh & m & E).
  { split; [cbn; lia|]. split; [discriminate|]. split; [discriminate|]. intros [N|N]; discriminate. }
  exists sh, m. split; [exact E|]. destruct (C71_constructed_motion [rec3] 0 _ _ _ _ ltac:(cbn; lia) E) as (a & v & w & Ea & _ & _ & (Hh & _) & _).
  change (sig_at [rec3] 0) with rec3 in Hh. rewrite conv_m in Hh. rewrite Ea, Hh. split; [reflexivity|].
  destruct (C71_peaks_and_rms [rec3] 0 _ _ _ _ ltac:(cbn; lia) E) as (P1 & (x & Hx & P2) & _). rewrite Ea, Hh in P1, Hx. cbn in P1, Hx.
  assert (B : Rabs 3 <= m_pga m) by (apply P1; auto). rewrite (Rabs_pos_eq 3) in B by lra.
  destruct Hx as [<-|[<-|[<-|[]]]]; rewrite Rabs_pos_eq in P2 by lra; lra.
Qed.

Example C90_instance : exists sh m, sig_at sh (m_accel m) = rec3 /\
  (let sp := mkfs 1 [] 2 [1 / 10; 5] (1 / 10) 5 [RtoC 2; RtoC 2] in
   exists sh' m', amplify_by_tf sh m (Inst sp) false true false = (sh', Ok (Some m')) /\ m_npts m' = 3%nat) /\
  (let h := [mktable false 2 [[20; 300]; [0; 800]]] in let p := mkobj 0 0 300 20 1 in
   exists sh' m', gm_amplify h sh m (Inst p) (Some true) = (sh', Ok (Some m')) /\ rsum (vals (sig_at sh' (m_accel m'))) = 6) /\
  (forall sp, amplify_by_tf sh m Wrong false true sp = (sh, Err TypeError)).
Proof.
  destruct rec3_motion as (sh & m & _ & Es & _). exists sh, m. split; [exact Es|]. split; [|split; [|reflexivity]].
  - cbv zeta. destruct (proj2 (proj1 (C90_by_tf sh m (mkfs 1 [] 2 [1 / 10; 5] (1 / 10) 5 [RtoC 2; RtoC 2]) false true false))) as (sh' & m' & E).
    { rewrite Es. cbn [fs_freq fs_spec]. destruct (C26_amplifies rec3 [1 / 10; 5] (TFComplex [RtoC 2; RtoC 2]) false _ _ ltac:(cbn; eauto) ltac:(cbn; lia) ltac:(rewrite rec3_step; lra) ltac:(discriminate) ltac:(left; cbn; lra)) as (y & Ey).
      apply C26_result in Ey as (s' & tab' & H). eauto. }
    exists sh', m'. split; [exact E|]. apply C90_by_tf in E as (s' & tab' & y & _ & _ & H). destruct (H eq_refl) as [-> _]. rewrite Es. reflexivity.
  - cbv zeta. set (h := [mktable false 2 [[20; 300]; [0; 800]]]). set (p := mkobj 0 0 300 20 1).
    assert (W : table_wf (tbl h (o_tbl p))) by (repeat constructor).
    assert (L : (2 <= length (sig_at sh (m_accel m)))%nat) by (rewrite Es; cbn; lia). assert (D : 0 < step_of (sig_at sh (m_accel m))) by (rewrite Es, rec3_step; lra).
    destruct (proj2 (C90_amplify_accepts_iff h sh m p true W L D)) as (sh' & m' & E).
    { exists false. split; [reflexivity|]. exists [[20; 300]], [0; 800]. split; [reflexivity|]. split; [constructor; [exists 20, 300, []; repeat split; lra|constructor]|]. exists 0, 800, []. split; [reflexivity|]. split; [lra|]. split; [lra|reflexivity]. }
    exists sh', m'. split; [exact E|]. destruct (C90_profile _ _ _ _ _ _ _ _ W L D E) as (_ & y & f & z & tab' & M & _ & S & _). rewrite (mo_accel _ _ _ _ M), S, Es. unfold rec3. cbn. lra.
Qed.

Example C91_instance : exists sh m a, sig_at sh (m_accel m) = rec3 /\
  adjust_init (Inst m) (PNum (Fin 300)) (Some (PNum (Fin 100))) nl_hh false = Ok a /\ ad_site a = site_at 300 100 (3 / (981 / 100)) /\
  (exists b, adjust_init (Inst m) (PNum (Fin 100)) (Some (PNum (Fin 100))) nl_hh true = Ok b /\ ad_Vs30 b = Fin 100 /\ s_Vs30 (ad_site b) = Fin 175) /\
  exists sh' m', adjust_run flat_table flat_axis (fun pts y q => Fin (wsum (tri_weights pts q) y)) sh a = (sh', Ok (Some m')) /\ m_npts m' = 3%nat.
Proof.
  destruct rec3_motion as (sh & m & _ & Es & Pm). set (a := mkadj m (Fin 300) (Fin 100) (m_pga m / (981 / 100)) (site_at 300 100 (m_pga m / (981 / 100))) nl_hh).
  assert (TD : forall v, v <= 300 -> ~ too_deep v 100).
  { intros v Hv T. unfold too_deep, limits_table in T. repeat match goal with H : Exists _ (_ :: _) |- _ => apply Exists_cons in H; destruct H as [[Hx Hy]|H]; cbn [fst snd] in *; [lra|] end. inversion T. }
  assert (IR : in_range 300 100 (m_pga m / (981 / 100))) by (unfold in_range; rewrite Pm; lra).
  exists sh, m, a. split; [exact Es|]. split.
  { apply (C91_constructor m 300 (Some 100) nl_hh false a). split; [auto|]. split; [|split; [discriminate|repeat split]].
    intros _. split; [exact IR|]. split; [apply TD; lra|reflexivity]. }
  split; [cbn; rewrite Pm; reflexivity|]. split.
  - exists (mkadj m (Fin 100) (Fin 100) (m_pga m / (981 / 100)) (site_at (clamp 175 950 100) (clamp 8 900 100) (clamp (1/100) (15/10) (m_pga m / (981 / 100)))) nl_hh).
    assert (C1 : clamp 175 950 100 = 175) by (unfold clamp, Rmin, Rmax; repeat destruct (Rle_dec _ _); lra). assert (C2 : clamp 8 900 100 = 100) by (apply clamp_id; lra).
    split; [|split; [reflexivity|cbn; rewrite C1; reflexivity]].
    apply (C91_constructor m 100 (Some 100) nl_hh true). split; [auto|]. split; [discriminate|]. split; [|repeat split]. intros _. cbn [depth_of]. split; [rewrite C1, C2; apply TD; lra|reflexivity].
  - destruct (C91_run_succeeds flat_table flat_axis _ sh a 2 linear_on_boxes_instance) as (sh' & m' & E & N); [left; reflexivity|apply flat_ok|apply flat_ok|lia| |exists 300, 100, (m_pga m / (981 / 100)); split; [exact IR|reflexivity]| | |].
    + intros V Z x _ _ [= <-]. repeat constructor; lra.
    + change (ad_motion a) with m. rewrite Es. cbn; lia.
    + change (ad_motion a) with m. rewrite Es, rec3_step. lra.
    + exists sh', m'. split; [exact E|]. rewrite N. change (ad_motion a) with m. rewrite Es. reflexivity.
Qed.
