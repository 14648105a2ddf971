(** Theorems about integration, peak picking and Ground_Motion (C15-C21, C71). *)
From Coq Require Import Reals List Bool ZArith Lia Lra.
From Verif Require Import Base M_generic P_generic M_profile P_profile M_vs_profile P_vs_profile M_motion P_motion.
Import ListNotations.
Open Scope R_scope.

(** ** C15 integration and differentiation *)
Theorem C15_integration_formula : forall s,
  ((length s < 2)%nat -> num_int s = Err IndexError) /\
  ((2 <= length s)%nat -> exists v u, num_int s = Ok (v, u) /\
    times v = times s /\ times u = times s /\
    (forall k, (k < length s)%nat -> nth k (vals v) 0 = step_of s * rsum (firstn (S k) (vals s))) /\
    (forall k, (k < length s)%nat -> nth k (vals u) 0 = step_of s * rsum (firstn (S k) (vals v)))).
Proof.
  intros s. split.
  - intros H. unfold num_int. rewrite first_step_err by auto. reflexivity.
  - intros H. destruct (num_int_spec s H) as (v & u & E & T1 & T2 & _ & _ & H1 & H2). exists v, u. auto.
Qed.

Theorem C15_integration_linear : forall c d s1 s2 s v1 u1 v2 u2 v u, lincomb c d s1 s2 s ->
  num_int s1 = Ok (v1, u1) -> num_int s2 = Ok (v2, u2) -> num_int s = Ok (v, u) ->
  lincomb c d v1 v2 v /\ lincomb c d u1 u2 u.
Proof.
  intros c d s1 s2 s v1 u1 v2 u2 v u (T1 & T2 & L1 & L2 & H) E1 E2 E.
  assert (Hn : (2 <= length s)%nat).
  { destruct (Nat.le_gt_cases 2 (length s)) as [|Hlt]; [auto|].
    unfold num_int in E. rewrite first_step_err in E by auto. discriminate. }
  destruct (num_int_spec s Hn) as (a & b & Ea & Ta & Tb & La & Lb & Ha & Hb). rewrite E in Ea. injection Ea as <- <-.
  destruct (num_int_spec s1 ltac:(lia)) as (a & b & Ea & Ta1 & Tb1 & La1 & Lb1 & Ha1 & Hb1). rewrite E1 in Ea. injection Ea as <- <-.
  destruct (num_int_spec s2 ltac:(lia)) as (a & b & Ea & Ta2 & Tb2 & La2 & Lb2 & Ha2 & Hb2). rewrite E2 in Ea. injection Ea as <- <-.
  assert (S1 : step_of s1 = step_of s) by (apply step_same; auto).
  assert (S2 : step_of s2 = step_of s) by (apply step_same; auto).
  assert (Hv : forall k, (k < length s)%nat -> nth k (vals v) 0 = c * nth k (vals v1) 0 + d * nth k (vals v2) 0).
  { intros k Hk. rewrite Ha, Ha1, Ha2 by lia.
    rewrite (rsum_firstn_lincomb c d (vals s1) (vals s2) (vals s)); rewrite ?vals_length; auto. rewrite S1, S2. lra. }
  split; (split; [congruence|split; [congruence|split; [lia|split; [lia|]]]]).
  - intros k Hk. apply Hv. lia.
  - intros k Hk. rewrite Hb, Hb1, Hb2 by lia.
    rewrite (rsum_firstn_lincomb c d (vals v1) (vals v2) (vals v)); rewrite ?vals_length; try lia.
    + rewrite S1, S2. lra.
    + intros j Hj. apply Hv. lia.
Qed.

Theorem C15_differentiate_after_integrate : forall s v u a w,
  (2 <= length s)%nat -> evenly_spaced s -> step_of s <> 0 ->
  num_int s = Ok (v, u) -> num_diff v = Ok a -> num_diff u = Ok w ->
  times a = times s /\
  nth 0 (vals a) 0 = 0 /\ (forall k, (1 <= k < length s)%nat -> nth k (vals a) 0 = nth k (vals s) 0) /\
  nth 0 (vals w) 0 = 0 /\ (forall k, (1 <= k < length s)%nat -> nth k (vals w) 0 = nth k (vals v) 0).
Proof.
  intros s v u a w Hn He Hd E Ea Ew.
  destruct (num_int_spec s Hn) as (v' & u' & E' & T1 & T2 & L1 & L2 & H1 & H2).
  rewrite E in E'. injection E' as <- <-.
  destruct (num_diff_spec v) as (a' & Ea' & Ta & _); [apply ne_of_len; lia|]. rewrite Ea in Ea'. injection Ea' as <-.
  destruct (diff_after_sum s v a Hn He Hd T1 L1 H1 Ea) as (A0 & AS).
  assert (Sv : step_of v = step_of s) by (apply step_same; auto).
  destruct (diff_after_sum v u w) as (W0 & WS); try lia; auto.
  - apply (evenly_same s v); auto.
  - rewrite Sv; auto.
  - congruence.
  - intros k Hk. rewrite Sv. apply H2. lia.
  - split; [congruence|]. split; [exact A0|]. split; [exact AS|]. split; [exact W0|]. intros k Hk. apply WS. lia.
Qed.

Theorem C15_integrate_after_differentiate : forall s a v u,
  (2 <= length s)%nat -> evenly_spaced s -> step_of s <> 0 ->
  num_diff s = Ok a -> num_int a = Ok (v, u) ->
  times v = times s /\ forall k, (k < length s)%nat -> nth k (vals v) 0 = nth k (vals s) 0 - nth 0 (vals s) 0.
Proof.
  intros s a v u Hn He Hd Ea Ev. split; [|eapply int_after_diff; eauto].
  destruct (num_diff_spec s (ne_of_len _ Hn)) as (a' & Ea' & Ta & La & _). rewrite Ea in Ea'. injection Ea' as <-.
  destruct (num_int_spec a ltac:(lia)) as (v' & u' & E' & T1 & _). rewrite Ev in E'. injection E' as <- <-. congruence.
Qed.

(** The first sample is lost: with a non-zero first sample the round trip is not
    the identity. *)
Theorem C15_round_trip_identity_refuted : exists s v u a,
  (2 <= length s)%nat /\ evenly_spaced s /\ 0 < step_of s /\
  num_int s = Ok (v, u) /\ num_diff v = Ok a /\ a <> s.
Proof.
  exists [(0, 1); (1, 1)]. do 3 eexists. split; [cbn; lia|]. split.
  - intros [|k] Hk; [reflexivity|cbn in Hk; lia].
  - split; [unfold step_of; cbn; lra|]. split; [cbn; reflexivity|]. split; [cbn; reflexivity|].
    intros E. apply (f_equal (fun l => nth 0 (vals l) 0)) in E. cbn in E. lra.
Qed.

Example C15_instance : exists s v u a w, (3 <= length s)%nat /\ evenly_spaced s /\ step_of s <> 0 /\
  num_int s = Ok (v, u) /\ num_diff v = Ok a /\ num_diff u = Ok w /\ nth 2 (vals a) 0 = 7.
Proof.
  exists [(0, 3); (2, 5); (4, 7)]. do 4 eexists. split; [cbn; lia|]. split.
  - intros [|[|k]] Hk; cbn in *; try lia; unfold step_of; cbn; lra.
  - split; [unfold step_of; cbn; lra|]. split; [cbn; reflexivity|]. split; [cbn; reflexivity|]. split; [cbn; reflexivity|]. cbn. field.
Qed.

(** ** C16 Arias intensity *)
Theorem C16_arias_monotone : forall s r, calc_Arias s = Ok r -> 0 <= step_of s ->
  nth 0 (ia r) 0 = 0 /\ length (ia r) = length s /\ ia_peak r = last (ia r) 0 /\
  nondecr (ia r) /\ 0 <= ia_peak r.
Proof.
  intros s r E Hd.
  assert (Hn : (2 <= length s)%nat).
  { destruct (Nat.le_gt_cases 2 (length s)) as [|Hlt]; [auto|].
    unfold calc_Arias in E. rewrite first_step_err in E by auto. discriminate. }
  destruct (calc_Arias_spec s Hn) as (r' & E' & Li & Hnth & Epk & _). rewrite E in E'. injection E' as <-.
  pose proof arias_const_pos. assert (Hc : 0 <= arias_const * step_of s) by (apply Rmult_le_pos; lra).
  split; [rewrite Hnth by lia; unfold energy; cbn; lra|]. split; [exact Li|]. split; [|split].
  - rewrite Epk, last_nth by (apply ne_of_len; lia). rewrite Li, Hnth by lia. reflexivity.
  - intros i j Hij. rewrite Li in Hij. rewrite !Hnth by lia.
    apply Rmult_le_compat_l; [exact Hc|]. apply energy_firstn_mono. lia.
  - rewrite Epk. apply Rmult_le_pos; [exact Hc|apply energy_nonneg].
Qed.

(** The peak is positive exactly when some sample other than the last is not 0. *)
Theorem C16_peak_positive_iff : forall s r, calc_Arias s = Ok r -> 0 < step_of s ->
  (0 < ia_peak r <-> exists k, (S k < length s)%nat /\ nth k (vals s) 0 <> 0).
Proof.
  intros s r E Hd.
  assert (Hn : (2 <= length s)%nat).
  { destruct (Nat.le_gt_cases 2 (length s)) as [|Hlt]; [auto|].
    unfold calc_Arias in E. rewrite first_step_err in E by auto. discriminate. }
  destruct (calc_Arias_spec s Hn) as (r' & E' & Li & Hnth & Epk & _). rewrite E in E'. injection E' as <-.
  rewrite Epk. pose proof arias_const_pos.
  assert (Hc : 0 < arias_const * step_of s) by (apply Rmult_lt_0_compat; lra).
  assert (Hin : forall k, (S k < length s)%nat -> In (nth k (vals s) 0) (firstn (length s - 1) (vals s))).
  { intros k Hk. rewrite <- (firstn_skipn (length s - 1) (vals s)) at 1.
    rewrite app_nth1 by (rewrite firstn_length, vals_length; lia). apply nth_In. rewrite firstn_length, vals_length; lia. }
  split.
  - intros Hp. destruct (Rle_dec (energy (firstn (length s - 1) (vals s))) 0) as [Hz|Hz]; [nra|].
    assert (Hex : exists x, In x (firstn (length s - 1) (vals s)) /\ x <> 0).
    { clear -Hz. induction (firstn (length s - 1) (vals s)) as [|x l IH]; [unfold energy in Hz; cbn in Hz; lra|].
      destruct (Req_dec x 0) as [->|Hx]; [|exists x; split; [left; auto|auto]].
      destruct IH as (y & Hy & Hy0); [rewrite energy_cons in Hz; lra|]. exists y. split; [right; auto|auto]. }
    destruct Hex as (x & Hx & Hx0). apply (In_nth _ _ 0) in Hx as (k & Hk & Ek).
    rewrite firstn_length, vals_length in Hk. exists k. split; [lia|]. intros Hz0. apply Hx0. rewrite <- Ek.
    rewrite <- (firstn_skipn (length s - 1) (vals s)) in Hz0.
    rewrite app_nth1 in Hz0 by (rewrite firstn_length, vals_length; lia). exact Hz0.
  - intros (k & Hk & Hnz). apply Rmult_lt_0_compat; [exact Hc|]. eapply energy_pos; [apply Hin; exact Hk|exact Hnz].
Qed.

Theorem C16_normalised : forall s r, calc_Arias s = Ok r -> 0 < step_of s -> 0 < ia_peak r ->
  exists xs, ia_norm r = map Fin xs /\ length xs = length s /\ nth 0 xs 0 = 0 /\ last xs 0 = 1 /\ nondecr xs /\
    (forall x, In x xs -> 0 <= x <= 1) /\
    exists i j, first_at_least xs (5/100) i /\ first_at_least xs (95/100) j /\ (1 <= i <= j)%nat /\
      t5_95 r = nth j (times s) 0 - nth i (times s) 0.
Proof.
  intros s r E Hd Hp. destruct (C16_arias_monotone s r E ltac:(lra)) as (H0 & Li & Epl & Hm & _).
  assert (Hn : (2 <= length s)%nat).
  { destruct (Nat.le_gt_cases 2 (length s)) as [|Hlt]; [auto|].
    unfold calc_Arias in E. rewrite first_step_err in E by auto. discriminate. }
  destruct (calc_Arias_spec s Hn) as (r' & E' & _ & _ & Epk & Hnz & _ & HT). rewrite E in E'. injection E' as <-.
  rewrite <- Epk in *. set (xs := map (fun x => x / ia_peak r) (ia r)) in *. exists xs.
  assert (Lxs : length xs = length s) by (unfold xs; rewrite map_length; exact Li).
  assert (Hx : forall k, (k < length s)%nat -> nth k xs 0 = nth k (ia r) 0 / ia_peak r).
  { intros k Hk. unfold xs. apply (nth_map0 (fun x => x / ia_peak r)). lia. }
  assert (Hmono : nondecr xs).
  { intros a b Hab. rewrite Lxs in Hab. rewrite !Hx by lia.
    apply Rmult_le_compat_r; [apply Rlt_le, Rinv_0_lt_compat; lra|]. apply Hm. lia. }
  assert (Hx0 : nth 0 xs 0 = 0) by (rewrite Hx, H0 by lia; unfold Rdiv; lra).
  assert (Hx1 : last xs 0 = 1).
  { rewrite last_nth by (apply ne_of_len; lia). rewrite Lxs, Hx by lia.
    rewrite Epl, last_nth by (apply ne_of_len; lia). rewrite Li. field.
    rewrite last_nth in Epl by (apply ne_of_len; lia). rewrite Li in Epl. lra. }
  split; [apply Hnz; lra|]. split; [exact Lxs|]. split; [exact Hx0|]. split; [exact Hx1|]. split; [exact Hmono|]. split.
  - intros x Hin. apply (In_nth _ _ 0) in Hin as (k & Hk & <-). split.
    + pose proof (Hmono 0%nat k ltac:(lia)). lra.
    + pose proof (Hmono k (length xs - 1)%nat ltac:(lia)) as H1.
      rewrite <- last_nth, Hx1 in H1 by (apply ne_of_len; lia). exact H1.
  - apply HT; lra.
Qed.

(** With times not decreasing the significant duration is not negative. *)
Corollary C16_duration_nonneg : forall s r, calc_Arias s = Ok r -> 0 < step_of s -> 0 < ia_peak r ->
  nondecr (times s) -> 0 <= t5_95 r <= last (times s) 0 - nth 0 (times s) 0.
Proof.
  intros s r E Hd Hp Ht. destruct (C16_normalised s r E Hd Hp) as (xs & _ & L & _ & _ & _ & _ & i & j & Hi & Hj & Hij & ->).
  destruct Hi as (Hi & _). destruct Hj as (Hj & _).
  assert (Htn : times s <> []) by (intros X; apply (f_equal (@length _)) in X; rewrite times_length in X; cbn in X; lia).
  rewrite last_nth by exact Htn.
  pose proof (Ht i j ltac:(rewrite times_length; lia)). pose proof (Ht 0%nat i ltac:(rewrite times_length; lia)).
  pose proof (Ht j (length (times s) - 1)%nat ltac:(rewrite !times_length in *; lia)). lra.
Qed.

(** A record that is zero except possibly at its last sample: no normalised
    intensity, and a "significant duration" equal to the last time. *)
Theorem C16_zero_record : forall s r, calc_Arias s = Ok r -> step_of s <> 0 ->
  (forall k, (S k < length s)%nat -> nth k (vals s) 0 = 0) ->
  ia_peak r = 0 /\ ia_norm r = repeat NaN (length s) /\ t5_95 r = last (times s) 0.
Proof.
  intros s r E Hd Hz.
  assert (Hn : (2 <= length s)%nat).
  { destruct (Nat.le_gt_cases 2 (length s)) as [|Hlt]; [auto|].
    unfold calc_Arias in E. rewrite first_step_err in E by auto. discriminate. }
  destruct (calc_Arias_spec s Hn) as (r' & E' & _ & _ & Epk & _ & HN & _). rewrite E in E'. injection E' as <-.
  assert (HE : energy (firstn (length s - 1) (vals s)) = 0).
  { unfold energy. assert (HF : Forall (fun x => x = 0) (firstn (length s - 1) (vals s))).
    { apply Forall_forall. intros x Hx. apply (In_nth _ _ 0) in Hx as (k & Hk & <-).
      rewrite firstn_length, vals_length in Hk. pose proof (Hz k ltac:(lia)) as Hzk.
      rewrite <- (firstn_skipn (length s - 1) (vals s)) in Hzk.
      rewrite app_nth1 in Hzk by (rewrite firstn_length, vals_length; lia). exact Hzk. }
    clear -HF. induction HF as [|x l Hx _ IH]; cbn [map rsum]; [reflexivity|rewrite IH, Hx; lra]. }
  split; [rewrite Epk, HE; lra|]. apply HN; [rewrite HE; lra|exact Hd].
Qed.

Theorem C16_scales_quadratically : forall s s' c r r', times s' = times s -> vals s' = map (fun x => x * c) (vals s) ->
  calc_Arias s = Ok r -> calc_Arias s' = Ok r' ->
  (forall k, nth k (ia r') 0 = c * c * nth k (ia r) 0) /\ ia_peak r' = c * c * ia_peak r /\
  (c <> 0 -> 0 < step_of s -> ia_norm r' = ia_norm r).
Proof.
  intros s s' c r r' HT HV E E'.
  assert (Hn : (2 <= length s)%nat).
  { destruct (Nat.le_gt_cases 2 (length s)) as [|Hlt]; [auto|].
    unfold calc_Arias in E. rewrite first_step_err in E by auto. discriminate. }
  assert (HL : length s' = length s) by (rewrite <- (times_length s'), HT; apply times_length).
  destruct (calc_Arias_spec s Hn) as (a & Ea & Li & Hi & Hp & Hz & HN & _). rewrite E in Ea. injection Ea as <-.
  destruct (calc_Arias_spec s' ltac:(lia)) as (a & Ea & Li' & Hi' & Hp' & Hz' & HN' & _). rewrite E' in Ea. injection Ea as <-.
  assert (Hs : step_of s' = step_of s) by (apply step_same; auto). rewrite Hs, HL in *.
  assert (He : forall k, energy (firstn k (vals s')) = c * c * energy (firstn k (vals s))).
  { intros k. rewrite HV. unfold energy. rewrite firstn_map, map_map.
    induction (firstn k (vals s)) as [|x l IH]; cbn; [lra|]. rewrite IH. lra. }
  assert (HI : forall k, nth k (ia r') 0 = c * c * nth k (ia r) 0).
  { intros k. destruct (Nat.lt_ge_cases k (length s)) as [Hk|Hk].
    - rewrite Hi, Hi', He by auto. lra.
    - rewrite !nth_overflow by lia. lra. }
  assert (HP : ia_peak r' = c * c * ia_peak r) by (rewrite Hp, Hp', He; lra).
  split; [exact HI|]. split; [exact HP|]. intros Hc Hd.
  rewrite <- Hp in *. rewrite <- Hp' in *.
  destruct (Req_dec (ia_peak r) 0) as [H0|H0].
  - destruct (HN H0 ltac:(lra)) as [-> _]. destruct (HN' ltac:(rewrite HP, H0; lra) ltac:(lra)) as [-> _]. reflexivity.
  - assert (ia_peak r' <> 0) by (rewrite HP; intros X; apply Rmult_integral in X as [X|X]; [nra|auto]).
    rewrite Hz, Hz' by auto. f_equal. apply (list_ext 0); [rewrite !map_length; lia|].
    intros k Hk. rewrite map_length in Hk. rewrite !(nth_map0 (fun x => x / _)) by lia. rewrite HI, HP. field. auto.
Qed.

Example C16_instance : exists r, calc_Arias [(0, 1); (1, 2); (2, 0)] = Ok r /\ 0 < ia_peak r /\
  0 < step_of [(0, 1); (1, 2); (2, 0)].
Proof.
  destruct (calc_Arias_spec [(0, 1); (1, 2); (2, 0)] ltac:(cbn; lia)) as (r & E & _ & _ & Ep & _).
  exists r. split; [exact E|]. rewrite Ep. unfold step_of, energy. cbn. split; [|lra].
  apply Rmult_lt_0_compat; [|lra]. pose proof arias_const_pos. lra.
Qed.

(** ** C71 the constructor *)
Theorem C71_constructor_accepts_iff : forall h loc u ty, (loc < length h)%nat ->
  ((exists h' m, gm_init h loc u ty = (h', Ok m)) <-> (2 <= length (sig_at h loc))%nat /\ acceptable u ty) /\
  (forall h' e, gm_init h loc u ty = (h', Err e) -> h' = h /\
     (e = ValueError \/ (e = IndexError /\ sig_at h loc = []))).
Proof.
  intros h loc u ty Hl.
  assert (Hrej : ~ ((2 <= length (sig_at h loc))%nat /\ acceptable u ty) ->
    exists e, gm_init h loc u ty = (h, Err e) /\ (e = ValueError \/ (e = IndexError /\ sig_at h loc = []))).
  { intros Hbad. unfold gm_init. destruct (Nat.eqb_spec (length (sig_at h loc)) 1) as [E1|E1]; [eauto|].
    destruct (Nat.le_gt_cases 2 (length (sig_at h loc))) as [H2|H2].
    - rewrite first_step_ok by auto. assert (Hna : ~ acceptable u ty) by tauto. unfold gm_checked.
      destruct u; [..|eauto]; (destruct ty; [..|eauto]); cbn [is_g andb negb]; eauto;
        exfalso; apply Hna; (split; [discriminate|split; [discriminate|]]); intros [X|X]; try discriminate; reflexivity.
    - rewrite first_step_err by auto. exists IndexError. split; [reflexivity|]. right. split; [reflexivity|].
      destruct (sig_at h loc) as [|x [|y l]]; cbn in *; [reflexivity|lia|lia]. }
  assert (Hacc : (2 <= length (sig_at h loc))%nat /\ acceptable u ty -> exists h' m, gm_init h loc u ty = (h', Ok m)).
  { intros [Hn Ha]. rewrite gm_init_eq by auto.
    destruct (gm_finish_spec (set_nth loc (conv u (sig_at h loc)) h) loc (step_of (sig_at h loc)) ty)
      as (h' & m & a & v & w & E & _).
    - rewrite set_nth_length. exact Hl.
    - rewrite sig_at_set, conv_length by auto. exact Hn.
    - apply Ha.
    - exists h', m. exact E. }
  assert (Hdec : ((2 <= length (sig_at h loc))%nat /\ acceptable u ty) \/ ~ ((2 <= length (sig_at h loc))%nat /\ acceptable u ty)).
  { destruct (Nat.le_gt_cases 2 (length (sig_at h loc))); [|right; lia].
    destruct u, ty; try (right; intros (_ & X & Y & Z); (congruence || discriminate (Z (or_introl eq_refl)) || discriminate (Z (or_intror eq_refl))));
      left; (split; [auto|split; [discriminate|split; [discriminate|]]]); intros [X|X]; try discriminate; reflexivity. }
  split.
  - split; [|exact Hacc]. intros (h' & m & E). destruct Hdec as [D|D]; [exact D|].
    destruct (Hrej D) as (e & E' & _). rewrite E in E'. discriminate.
  - intros h' e E. destruct Hdec as [D|D].
    + destruct (Hacc D) as (h2 & m & E'). rewrite E in E'. discriminate.
    + destruct (Hrej D) as (e' & E' & He). rewrite E in E'. injection E' as -> ->. auto.
Qed.

(** What a constructed motion holds; [d] is the caller's array in SI units, which
    also replaces the caller's array. *)
Theorem C71_constructed_motion : forall h loc u ty h' m, (loc < length h)%nat ->
  gm_init h loc u ty = (h', Ok m) ->
  let s := sig_at h loc in
  let d := conv u s in
  exists a v w, sig_at h' (m_accel m) = a /\ sig_at h' (m_veloc m) = v /\ sig_at h' (m_displ m) = w /\
    histories ty d a v w /\ times a = times s /\ times v = times s /\ times w = times s /\
    sig_at h' loc = d /\ (forall l, (l < length h)%nat -> l <> loc -> sig_at h' l = sig_at h l) /\
    (match ty with T_accel => m_accel m = loc | T_veloc => m_veloc m = loc | _ => m_displ m = loc end) /\
    m_dt m = step_of s /\ m_npts m = length s /\
    max_abs (vals a) = Ok (m_pga m) /\ max_abs (vals v) = Ok (m_pgv m) /\ max_abs (vals w) = Ok (m_pgd m) /\
    calc_Arias a = Ok (m_arias m) /\
    m_time m = linspace 0 (step_of s * INR (length s - 1)) (length s) /\
    exists v' w', num_int a = Ok (v', w') /\ m_rms m = (rms (vals a), rms (vals v'), rms (vals w')).
Proof.
  intros h loc u ty h' m Hl E s d.
  destruct (proj1 (proj1 (C71_constructor_accepts_iff h loc u ty Hl))) as [Hn Ha]; [eauto|]. fold s in Hn.
  rewrite gm_init_eq in E by auto. fold s in E. fold d in E.
  assert (Es : sig_at (set_nth loc d h) loc = d) by (apply sig_at_set; auto).
  assert (Ld : length d = length s) by apply conv_length.
  destruct (gm_finish_spec (set_nth loc d h) loc (step_of s) ty) as
    (h2 & m2 & a & v & w & E2 & HH & _ & (T1 & T2 & T3) & Sa & Sv & Sw & HA & Edt & Enp & P1 & P2 & P3 & EA & (v' & w' & Ei & Er) & Hold & Etm & _).
  { rewrite set_nth_length; auto. } { rewrite Es. lia. } { apply Ha. }
  rewrite E in E2. injection E2 as <- <-. rewrite Es in *.
  assert (Td : times d = times s) by apply conv_times. rewrite set_nth_length in Hold.
  exists a, v, w.
  split; [exact Sa|]. split; [exact Sv|]. split; [exact Sw|]. split; [exact HH|].
  split; [congruence|]. split; [congruence|]. split; [congruence|].
  split; [rewrite Hold by auto; exact Es|].
  split. { intros l Hll Hne. rewrite Hold by auto. unfold sig_at. apply set_nth_other; auto. }
  split; [exact HA|]. split; [exact Edt|]. split; [lia|].
  split; [exact P1|]. split; [exact P2|]. split; [exact P3|]. split; [exact EA|].
  split; [rewrite Etm, Ld; reflexivity|]. exists v', w'. auto.
Qed.

(** Peak attributes are attained maxima and bound the RMS value. *)
Lemma rms_le_peak v p : v <> [] -> max_abs v = Ok p -> 0 <= rms v <= p.
Proof.
  intros Hv E. destruct (max_abs_ok v Hv) as (p' & E' & Hp & Hall & _). rewrite E in E'. injection E' as <-.
  unfold rms. split; [apply sqrt_pos|].
  assert (Hn : 0 < INR (length v)) by (destruct v; [congruence|apply lt_0_INR; cbn; lia]).
  rewrite <- (sqrt_square p) by auto. apply sqrt_le_1_alt.
  apply Rmult_le_reg_r with (INR (length v)); [auto|]. unfold Rdiv. rewrite Rmult_assoc, Rinv_l, Rmult_1_r by lra.
  clear -Hall Hp. induction v as [|x v IH]; [cbn; lra|].
  assert (H1 : rsum (map (fun x => x * x) v) <= p * p * INR (length v)) by (apply IH; intros; apply Hall; cbn; auto).
  assert (H2 : x * x <= p * p).
  { pose proof (Hall x (or_introl eq_refl)) as Hx. pose proof (Rabs_pos x).
    replace (x * x) with (Rabs x * Rabs x) by (rewrite <- Rabs_mult; apply Rabs_pos_eq; nra).
    apply Rmult_le_compat; auto. }
  cbn [map rsum length]. rewrite S_INR. lra.
Qed.

Theorem C71_peaks_and_rms : forall h loc u ty h' m, (loc < length h)%nat -> gm_init h loc u ty = (h', Ok m) ->
  let a := vals (sig_at h' (m_accel m)) in
  (forall x, In x a -> Rabs x <= m_pga m) /\ (exists x, In x a /\ m_pga m = Rabs x) /\
  0 <= fst (fst (m_rms m)) <= m_pga m /\ pga_in_g m = m_pga m / (981 / 100).
Proof.
  intros h loc u ty h' m Hl E a.
  destruct (proj1 (proj1 (C71_constructor_accepts_iff h loc u ty Hl))) as [Hn Ha]; [eauto|].
  destruct (C71_constructed_motion _ _ _ _ _ _ Hl E) as
    (a' & v & w & Ea & _ & _ & _ & Ta & _ & _ & _ & _ & _ & _ & _ & P1 & _ & _ & _ & _ & v' & w' & _ & Er).
  subst a. rewrite Ea in *.
  assert (Hne : vals a' <> []).
  { apply ne_of_len. rewrite vals_length, <- times_length, Ta, times_length. exact Hn. }
  destruct (max_abs_ok _ Hne) as (p & Ep & _ & H1 & H2). rewrite P1 in Ep. injection Ep as <-.
  split; [exact H1|]. split; [exact H2|]. split; [|reflexivity]. rewrite Er. cbn. apply rms_le_peak; auto.
Qed.

(** Constructing twice from the same array in a non-SI unit converts twice. *)
Theorem C71_second_construction : forall h loc u ty h1 m1 h2 m2, (loc < length h)%nat ->
  gm_init h loc u ty = (h1, Ok m1) -> gm_init h1 loc u ty = (h2, Ok m2) ->
  sig_at h2 loc = conv u (conv u (sig_at h loc)) /\
  (ty = T_accel -> sig_at h2 (m_accel m1) = conv u (conv u (sig_at h loc))).
Proof.
  intros h loc u ty h1 m1 h2 m2 Hl E1 E2.
  destruct (C71_constructed_motion _ _ _ _ _ _ Hl E1) as (a & v & w & Ea & _ & _ & _ & _ & _ & _ & Eloc & _ & Hty & _).
  assert (Hl1 : (loc < length h1)%nat).
  { destruct (Nat.lt_ge_cases loc (length h1)) as [|Hge]; [auto|]. exfalso.
    destruct (proj1 (proj1 (C71_constructor_accepts_iff h loc u ty Hl))) as [Hn _]; [eauto|].
    unfold sig_at in Eloc at 1. rewrite nth_overflow in Eloc by auto.
    apply (f_equal (@length _)) in Eloc. rewrite conv_length in Eloc. cbn in Eloc. lia. }
  destruct (C71_constructed_motion _ _ _ _ _ _ Hl1 E2) as (a2 & v2 & w2 & _ & _ & _ & _ & _ & _ & _ & Eloc2 & _).
  rewrite Eloc in Eloc2. split; [exact Eloc2|]. intros ->. rewrite Hty. exact Eloc2.
Qed.

Definition gal_demo : sheap := [[(0, 100); (1, 200); (2, -300)]].
Example C71_instance : exists h' m, gm_init gal_demo 0 U_gal T_accel = (h', Ok m) /\
  sig_at h' 0 = [(0, 100 / 100); (1, 200 / 100); (2, -300 / 100)] /\ m_pga m = 3.
Proof.
  assert (Hl : (0 < length gal_demo)%nat) by (cbn; lia).
  destruct (proj2 (proj1 (C71_constructor_accepts_iff _ 0 U_gal T_accel Hl))) as (h' & m & E).
  - split; [cbn; lia|]. split; [discriminate|split; [discriminate|reflexivity]].
  - exists h', m. split; [exact E|].
    destruct (C71_constructed_motion _ _ _ _ _ _ Hl E) as (a & v & w & Ea & _ & _ & (-> & _) & _ & _ & _ & Eloc & _).
    split; [exact Eloc|].
    destruct (C71_peaks_and_rms _ _ _ _ _ _ Hl E) as (H1 & (x & Hx & H2) & _). rewrite Ea in *.
    cbn in H1, Hx. assert (Ht : Rabs (-300 / 100) = 3) by (rewrite Rabs_left; lra).
    specialize (H1 (-300/100)). rewrite Ht in H1. specialize (H1 ltac:(auto)).
    rewrite H2 in *. destruct Hx as [<-|[<-|[<-|[]]]]; [| |exact Ht].
    + rewrite Rabs_pos_eq in H1 by lra. lra.
    + rewrite Rabs_pos_eq in H1 by lra. lra.
Qed.
