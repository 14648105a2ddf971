(** C92: spectra, filters and baseline correction of motion objects. *)
From Coq Require Import Reals List Bool ZArith Lia Lra.
From Coquelicot Require Import Complex.
From Coq Require Import List.
From Verif Require Import Base M_generic P_generic M_profile P_profile M_motion P_motion Prop_motion M_interp P_interp M_dft P_dft M_spectra Prop_spectra M_signal Prop_fourier Prop_filter Prop_baseline M_amplify M_freqspec Prop_freqspec M_results M_propagate Prop_propagate M_gmsignal.
Import ListNotations.
Open Scope list_scope.
Open Scope R_scope.

(** A motion whose array is there and has two samples or more, as every constructed motion. *)
Definition live (sh : sheap) (m : motion) : Prop := (m_accel m < length sh)%nat /\ (2 <= length (sig_at sh (m_accel m)))%nat.

(** [m'] holds the very array of [m], whose values have not changed. *)
Record shares (sh sh' : sheap) (m m' : motion) : Prop := mkshares {
  sh_same : m_accel m' = m_accel m;
  sh_rest : num_int (sig_at sh (m_accel m)) = Ok (sig_at sh' (m_veloc m'), sig_at sh' (m_displ m'));
  sh_npts : m_npts m' = length (sig_at sh (m_accel m));
  sh_dt : m_dt m' = step_of (sig_at sh (m_accel m));
  sh_kept : forall l, (l < length sh)%nat -> sig_at sh' l = sig_at sh l }.

Lemma init_shares sh m : live sh m -> exists sh' m', gm_init sh (m_accel m) U_m T_accel = (sh', Ok m') /\ shares sh sh' m m'.
Proof.
  intros [Hl Hn].
  destruct (proj2 (proj1 (C71_constructor_accepts_iff sh (m_accel m) U_m T_accel Hl))) as (sh' & m' & E).
  { split; [exact Hn|]. split; [discriminate|]. split; [discriminate|]. intros [N|N]; discriminate. }
  exists sh', m'. split; [exact E|].
  destruct (C71_constructed_motion _ _ _ _ _ _ Hl E) as (a & v & w & Ea & Ev & Ew & Hh & _ & _ & _ & E0 & Ek & El & Ed & En & _).
  rewrite conv_m in *. destruct Hh as [-> Hi]. constructor; try assumption.
  - rewrite Ev, Ew. exact Hi.
  - intros l Hll. destruct (Nat.eq_dec l (m_accel m)) as [->|N]; [exact E0|apply Ek; assumption].
Qed.

Lemma init_new (sh : sheap) (y : signal) : (2 <= length y)%nat -> exists sh' m', gm_init (sh ++ [y]) (length sh) U_m T_accel = (sh', Ok m') /\ made_of sh sh' m' y.
Proof.
  intros H. destruct (motion_of_some sh y H) as (sh' & m' & E & M). exists sh', m'. split; [|exact M].
  unfold motion_of in E. destruct (gm_init (sh ++ [y]) (length sh) U_m T_accel) as [s2 [m2|e]]; cbn [bind] in E; [|discriminate]. injection E as <- <-. reflexivity.
Qed.

Section C92.
Variable butter : nat -> fkind -> list R -> list section.

(** The outcome of a filter call on a motion, from its outcome on the array. *)
Lemma refit_cases sh m c k order : live sh m ->
  match filter_kernel butter (sig_at sh (m_accel m)) c k order with
  | Err e => gm_filter butter k sh m c order = (sh, Err e)
  | Ok FSame => exists sh' m', gm_filter butter k sh m c order = (sh', Ok m') /\ shares sh sh' m m'
  | Ok (FNew y) => exists sh' m', gm_filter butter k sh m c order = (sh', Ok m') /\ made_of sh sh' m' y /\ times y = times (sig_at sh (m_accel m))
  end.
Proof.
  intros HL. unfold gm_filter. destruct (filter_kernel butter (sig_at sh (m_accel m)) c k order) as [[|y]|e] eqn:E; cbn [refit].
  - apply init_shares, HL.
  - destruct (C33_shape butter _ _ _ _ _ E) as [T L]. cbn [out_of] in T, L.
    destruct (init_new sh y) as (sh' & m' & E' & M); [rewrite L; apply HL|]. eauto.
  - reflexivity.
Qed.

Lemma filtered_made sh m c k order kind Wn : live sh m ->
  filter_kernel butter (sig_at sh (m_accel m)) c k order = Ok (filtered butter (sig_at sh (m_accel m)) order kind Wn) ->
  exists sh' m', gm_filter butter k sh m c order = (sh', Ok m') /\
    made_of sh sh' m' (with_vals (sig_at sh (m_accel m)) (sosfilt (butter order kind Wn) (vals (sig_at sh (m_accel m))))).
Proof.
  intros HL E. pose proof (refit_cases sh m c k order HL) as H. rewrite E in H. unfold filtered in H. destruct H as (sh' & m' & E' & M & _). eauto.
Qed.
Lemma same_shared sh m c k order : live sh m ->
  filter_kernel butter (sig_at sh (m_accel m)) c k order = Ok FSame ->
  exists sh' m', gm_filter butter k sh m c order = (sh', Ok m') /\ shares sh sh' m m'.
Proof. intros HL E. pose proof (refit_cases sh m c k order HL) as H. rewrite E in H. exact H. Qed.
Lemma refused sh m c k order e : live sh m ->
  filter_kernel butter (sig_at sh (m_accel m)) c k order = Err e -> gm_filter butter k sh m c order = (sh, Err e).
Proof. intros HL E. pose proof (refit_cases sh m c k order HL) as H. rewrite E in H. exact H. Qed.

(** Low pass: below the Nyquist frequency a new motion holds the filtered record; at or above
    it the "filtered" motion holds the array of the original; a cutoff of zero or less is
    refused. *)
Theorem C92_lowpass : forall sh m f order, live sh m ->
  let s := sig_at sh (m_accel m) in let dt := step_of s in 0 < dt ->
  (1 <= 2 * dt * f -> exists sh' m', gm_lowpass butter sh m (CNum f) order = (sh', Ok m') /\ shares sh sh' m m') /\
  (0 < 2 * dt * f < 1 -> exists sh' m', gm_lowpass butter sh m (CNum f) order = (sh', Ok m') /\
     made_of sh sh' m' (with_vals s (sosfilt (butter order Lowpass [2 * dt * f]) (vals s)))) /\
  (f <= 0 -> gm_lowpass butter sh m (CNum f) order = (sh, Err ValueError)).
Proof.
  intros sh m f order HL s dt Hd. destruct (C33_lowpass butter s f order dt (P_motion.first_step_ok s (proj2 HL)) Hd) as (A & B & D).
  split; [|split]; intros H; unfold gm_lowpass.
  - apply same_shared; auto.
  - apply filtered_made; auto.
  - apply refused; auto.
Qed.

Theorem C92_highpass : forall sh m f order, live sh m ->
  let s := sig_at sh (m_accel m) in let dt := step_of s in 0 < dt ->
  (f <= 0 -> exists sh' m', gm_highpass butter sh m (CNum f) order = (sh', Ok m') /\ shares sh sh' m m') /\
  (0 < 2 * dt * f < 1 -> exists sh' m', gm_highpass butter sh m (CNum f) order = (sh', Ok m') /\
     made_of sh sh' m' (with_vals s (sosfilt (butter order Highpass [2 * dt * f]) (vals s)))) /\
  (1 <= 2 * dt * f -> gm_highpass butter sh m (CNum f) order = (sh, Err ValueError)).
Proof.
  intros sh m f order HL s dt Hd. destruct (C33_highpass butter s f order dt (P_motion.first_step_ok s (proj2 HL)) Hd) as (A & B & D).
  split; [|split]; intros H; unfold gm_highpass.
  - apply same_shared; auto.
  - apply filtered_made; auto.
  - apply refused; auto.
Qed.

(** Band filters: the same call as a one-sided filter when a corner is out of the band the
    record resolves, and otherwise a new motion. *)
Theorem C92_band : forall sh m fmin fmax order, live sh m ->
  let s := sig_at sh (m_accel m) in let dt := step_of s in 0 < dt -> fmin < fmax ->
  let bp := gm_bandpass butter sh m (CSeq [fmin; fmax]) order in
  let bs := gm_bandstop butter sh m (CSeq [fmin; fmax]) order in
  (9999 / 10000 <= 2 * dt * fmax -> bp = gm_highpass butter sh m (CNum fmin) order /\ bs = gm_lowpass butter sh m (CNum fmin) order) /\
  (2 * dt * fmax < 9999 / 10000 -> fmin <= 1 / (INR (length s) * dt) ->
     bp = gm_lowpass butter sh m (CNum fmax) order /\ bs = gm_highpass butter sh m (CNum fmax) order) /\
  (2 * dt * fmax < 9999 / 10000 -> 1 / (INR (length s) * dt) < fmin ->
     forall k, k = Bandpass \/ k = Bandstop -> exists sh' m', gm_filter butter k sh m (CSeq [fmin; fmax]) order = (sh', Ok m') /\
       made_of sh sh' m' (with_vals s (sosfilt (butter order k [2 * dt * fmin; 2 * dt * fmax]) (vals s)))).
Proof.
  intros sh m fmin fmax order HL s dt Hd Hf. cbv zeta.
  destruct (C33_band butter s fmin fmax order dt (P_motion.first_step_ok s (proj2 HL)) Hd Hf) as (A & B & D).
  unfold gm_bandpass, gm_bandstop, gm_lowpass, gm_highpass. split; [|split].
  - intros H. destruct (A H) as [A1 A2]. unfold gm_filter. fold s. rewrite A1, A2. auto.
  - intros H H2. destruct (B H H2) as [A1 A2]. unfold gm_filter. fold s. rewrite A1, A2. auto.
  - intros H H2 k Hk. destruct (D H H2) as (D1 & D2 & _). destruct Hk as [-> | ->]; apply filtered_made; assumption.
Qed.

Theorem C92_filter_errors : forall sh m order, live sh m ->
  (forall f k, k = Bandpass \/ k = Bandstop -> gm_filter butter k sh m (CNum f) order = (sh, Err TypeError)) /\
  (forall k, k <> BadKind -> gm_filter butter k sh m COther order = (sh, Err TypeError)) /\
  (forall l k, k = Lowpass \/ k = Highpass -> gm_filter butter k sh m (CSeq l) order = (sh, Err TypeError)) /\
  (forall l k, k = Bandpass \/ k = Bandstop -> length l <> 2%nat -> gm_filter butter k sh m (CSeq l) order = (sh, Err ValueError)) /\
  (forall a b k, k = Bandpass \/ k = Bandstop -> b <= a -> gm_filter butter k sh m (CSeq [a; b]) order = (sh, Err ValueError)).
Proof.
  intros sh m order HL. destruct (C33_bad_arguments butter (sig_at sh (m_accel m)) order) as (A & B & D & E & F & _).
  split; [|split; [|split; [|split]]]; intros; apply refused; auto.
Qed.

(** Whatever the filter, what comes out has the times of the motion, and no existing array
    changes; refusals change nothing. *)
Theorem C92_filter_keeps : forall sh m c k order, live sh m ->
  match gm_filter butter k sh m c order with
  | (sh', Ok m') => times (sig_at sh' (m_accel m')) = times (sig_at sh (m_accel m)) /\ m_npts m' = length (sig_at sh (m_accel m)) /\
      m_dt m' = step_of (sig_at sh (m_accel m)) /\ (forall l, (l < length sh)%nat -> sig_at sh' l = sig_at sh l) /\
      (m_accel m' = m_accel m \/ (length sh <= m_accel m')%nat)
  | (sh', Err e) => sh' = sh
  end.
Proof.
  intros sh m c k order HL. pose proof (refit_cases sh m c k order HL) as H.
  destruct (filter_kernel butter (sig_at sh (m_accel m)) c k order) as [[|y]|e].
  - destruct H as (sh' & m' & -> & [S1 S2 S3 S4 S5]). rewrite S1, S3, S4. rewrite (S5 _ (proj1 HL)). repeat split; auto.
  - destruct H as (sh' & m' & -> & [M1 M2 M3 M4 M5 M6] & T). rewrite M1, M3, M4, T.
    assert (L : length y = length (sig_at sh (m_accel m))) by (apply (f_equal (@length R)) in T; unfold times in T; rewrite !map_length in T; exact T).
    split; [reflexivity|]. split; [exact L|]. split; [|auto]. unfold step_of. rewrite T. reflexivity.
  - rewrite H. reflexivity.
Qed.

(** Superposition: for three motions with the same times, the third being the sum of
    multiples of the other two, the filtered third is the sum of the filtered ones. *)
Theorem C92_filter_linear : forall sh1 m1 sh2 m2 sh3 m3 a b c k order,
  live sh1 m1 -> live sh2 m2 -> live sh3 m3 ->
  let s1 := sig_at sh1 (m_accel m1) in let s2 := sig_at sh2 (m_accel m2) in
  times s2 = times s1 -> sig_at sh3 (m_accel m3) = with_vals s1 (lincomb a b (vals s1) (vals s2)) ->
  match gm_filter butter k sh1 m1 c order, gm_filter butter k sh2 m2 c order, gm_filter butter k sh3 m3 c order with
  | (t1, Ok n1), (t2, Ok n2), (t3, Ok n3) =>
      vals (sig_at t3 (m_accel n3)) = lincomb a b (vals (sig_at t1 (m_accel n1))) (vals (sig_at t2 (m_accel n2)))
  | (_, Err e1), (_, Err e2), (_, Err e3) => e1 = e3 /\ e2 = e3
  | _, _, _ => False
  end.
Proof.
  intros sh1 m1 sh2 m2 sh3 m3 a b c k order L1 L2 L3 s1 s2 HT E3.
  assert (G : forall sh m o, live sh m -> filter_kernel butter (sig_at sh (m_accel m)) c k order = Ok o ->
    exists sh' m', gm_filter butter k sh m c order = (sh', Ok m') /\ sig_at sh' (m_accel m') = out_of (sig_at sh (m_accel m)) o).
  { intros sh m o L E. pose proof (refit_cases sh m c k order L) as H. rewrite E in H. destruct o as [|y].
    - destruct H as (sh' & m' & E' & [S1 S2 S3 S4 S5]). exists sh', m'. split; [exact E'|]. rewrite S1. apply S5, L.
    - destruct H as (sh' & m' & E' & M & _). exists sh', m'. split; [exact E'|]. apply (mo_accel _ _ _ _ M). }
  pose proof (C80_linear butter s1 s2 a b c k order HT) as H. rewrite <- E3 in H.
  destruct (filter_kernel butter s1 c k order) as [o1|e1] eqn:F1; destruct (filter_kernel butter s2 c k order) as [o2|e2] eqn:F2;
    destruct (filter_kernel butter (sig_at sh3 (m_accel m3)) c k order) as [o3|e3] eqn:F3; try contradiction.
  - destruct (G _ _ _ L1 F1) as (t1 & n1 & -> & ->). destruct (G _ _ _ L2 F2) as (t2 & n2 & -> & ->). destruct (G _ _ _ L3 F3) as (t3 & n3 & -> & ->).
    destruct H as [H _]. exact H.
  - rewrite (refused _ _ _ _ _ _ L1 F1), (refused _ _ _ _ _ _ L2 F2), (refused _ _ _ _ _ _ L3 F3). exact H.
Qed.

(** The documentation promises zero-phase filters; the output up to a sample depends on the
    motion up to that sample only. *)
Theorem C92_filter_causal : forall sh1 m1 sh2 m2 c k order n t1 n1 t2 n2,
  live sh1 m1 -> live sh2 m2 -> times (sig_at sh2 (m_accel m2)) = times (sig_at sh1 (m_accel m1)) ->
  firstn n (vals (sig_at sh2 (m_accel m2))) = firstn n (vals (sig_at sh1 (m_accel m1))) ->
  gm_filter butter k sh1 m1 c order = (t1, Ok n1) -> gm_filter butter k sh2 m2 c order = (t2, Ok n2) ->
  firstn n (vals (sig_at t2 (m_accel n2))) = firstn n (vals (sig_at t1 (m_accel n1))).
Proof.
  intros sh1 m1 sh2 m2 c k order n t1 n1 t2 n2 L1 L2 HT HV E1 E2.
  assert (G : forall sh m t m', live sh m -> gm_filter butter k sh m c order = (t, Ok m') ->
    exists o, filter_kernel butter (sig_at sh (m_accel m)) c k order = Ok o /\ sig_at t (m_accel m') = out_of (sig_at sh (m_accel m)) o).
  { intros sh m t m' L E. pose proof (refit_cases sh m c k order L) as H. destruct (filter_kernel butter (sig_at sh (m_accel m)) c k order) as [[|y]|e].
    - destruct H as (sh' & m2' & E' & [S1 S2 S3 S4 S5]). rewrite E in E'. injection E' as -> ->. exists FSame. split; [reflexivity|]. rewrite S1. apply S5, L.
    - destruct H as (sh' & m2' & E' & M & _). rewrite E in E'. injection E' as -> ->. exists (FNew y). split; [reflexivity|]. apply (mo_accel _ _ _ _ M).
    - rewrite E in H. discriminate. }
  destruct (G _ _ _ _ L1 E1) as (o1 & F1 & ->). destruct (G _ _ _ _ L2 E2) as (o2 & F2 & ->).
  exact (C80_causal butter _ _ _ _ _ _ _ _ HT HV F1 F2).
Qed.

(** Baseline correction: which motions and cutoffs are accepted, and what comes out. *)
Theorem C92_baseline : forall sh m f, live sh m ->
  let s := sig_at sh (m_accel m) in let dt := step_of s in 0 < dt ->
  ((exists sh' m', gm_baseline butter sh m f = (sh', Ok m')) <-> (5 <= length s)%nat /\ f <> 0 /\ 2 * dt * f < 1) /\
  (forall sh' e, gm_baseline butter sh m f = (sh', Err e) -> sh' = sh /\
     e = if Nat.ltb (length s) 5 then IndexError else if Reqb f 0 then ZeroDivisionError else ValueError) /\
  (forall sh' m', gm_baseline butter sh m f = (sh', Ok m') ->
     (length sh <= m_accel m')%nat /\ (forall l, (l < length sh)%nat -> sig_at sh' l = sig_at sh l) /\
     times (sig_at sh' (m_accel m')) = times s /\ m_npts m' = length s /\ m_dt m' = dt /\
     nth 0 (vals (sig_at sh' (m_accel m'))) 0 = 0 /\
     (evenly_spaced s -> let u := sig_at sh' (m_displ m') in fit_slope (times u) (vals u) = 0 /\ nth 0 (vals u) 0 = 0)).
Proof.
  intros sh m f HL s dt Hd. destruct (C81_outcomes butter s f dt (P_motion.first_step_ok s (proj2 HL)) Hd) as (A & B & D & E).
  unfold gm_baseline. fold s.
  assert (W : forall y, (2 <= length y)%nat -> exists sh' m', refit sh m (let! y0 := Ok y in Ok (FNew y0)) = (sh', Ok m') /\ made_of sh sh' m' y) by (intros y Hy; cbn [bind refit]; apply init_new, Hy).
  destruct (Nat.ltb_spec (length s) 5) as [L5|L5].
  { rewrite (A L5). cbn [bind refit]. split; [split; [intros (? & ? & Q); discriminate|lia]|]. split; [intros sh' e Q; injection Q as <- <-; auto|intros sh' m' Q; discriminate]. }
  destruct (Reqb_spec f 0) as [Z|Z].
  { rewrite (B L5 Z). cbn [bind refit]. split; [split; [intros (? & ? & Q); discriminate|tauto]|]. split; [intros sh' e Q; injection Q as <- <-; auto|intros sh' m' Q; discriminate]. }
  destruct (Rlt_le_dec (2 * dt * f) 1) as [Q|Q].
  2:{ rewrite (D L5 Q). cbn [bind refit]. split; [split; [intros (? & ? & X); discriminate|intros (_ & _ & X); lra]|]. split; [intros sh' e X; injection X as <- <-; auto|intros sh' m' X; discriminate]. }
  destruct (E L5 Z Q) as (r & Er & Tr & Lr & Zr). rewrite Er. destruct (W r) as (sh1 & m1 & E1 & [M1 M2 M3 M4 M5 M6]); [lia|].
  split; [split; [auto|intros _; eauto]|]. split; [intros sh' e X; pose proof (eq_trans (eq_sym E1) X) as X2; discriminate|].
  intros sh' m' X. pose proof (eq_trans (eq_sym E1) X) as X2. injection X2 as <- <-. split; [exact M5|]. split; [exact M6|]. rewrite M1, M3, M4, Tr, Lr.
  split; [reflexivity|]. split; [reflexivity|]. split; [unfold step_of, dt; rewrite Tr; reflexivity|]. split; [exact Zr|].
  intros He. cbv zeta. exact (C81_no_drift butter s f r _ _ L5 He Hd Er M2).
Qed.
End C92.

(** The array of a motion "filtered" at or beyond the Nyquist frequency is the array of the
    original: saving the one in g divides the accelerations of the other by 9.81. *)
Theorem C92_shared_array_rewritten : forall butter sh m f order, live sh m ->
  let s := sig_at sh (m_accel m) in 0 < step_of s -> 1 <= 2 * step_of s * f ->
  exists sh' m', gm_lowpass butter sh m (CNum f) order = (sh', Ok m') /\
    forall sh2 w, save_accel sh' m' U_g = (sh2, w) -> sig_at sh2 (m_accel m) = map (fun p => (fst p, snd p / (981 / 100))) s.
Proof.
  intros butter sh m f order HL s Hd Hf. destruct (C92_lowpass butter sh m f order HL Hd) as (A & _). destruct (A Hf) as (sh' & m' & E & [S1 S2 S3 S4 S5]).
  exists sh', m'. split; [exact E|]. intros sh2 w H. unfold save_accel in H. injection H as <- <-. rewrite S1. unfold sig_at at 1.
  assert (Hl : (m_accel m < length sh')%nat).
  { destruct (Nat.lt_ge_cases (m_accel m) (length sh')) as [|G]; [auto|]. exfalso. pose proof (S5 _ (proj1 HL)) as Q. unfold sig_at in Q at 1. rewrite nth_overflow in Q by exact G.
    destruct HL as [_ HL]. rewrite <- Q in HL. cbn in HL. lia. }
  fold s. rewrite (S5 _ (proj1 HL)). fold s. apply (sig_at_set sh' (m_accel m)). exact Hl.
Qed.

(** ** Fourier spectrum of a motion *)

Lemma fourier_ok s ds : (2 <= length s)%nat -> exists X, fourier_transform s ds = Ok X /\ length X = rows (length s) ds /\
  forall k, (k < length X)%nat -> nth k X (0, RtoC 0) = ((INR k + 1) / (INR (length s) * step_of s), spec s k).
Proof.
  intros H. pose proof (P_motion.first_step_ok s H) as F. destruct (proj1 (C32_shape s ds) _ F) as (X & EX & LX & HX). exists X. split; [exact EX|]. split; [exact LX|].
  intros k Hk. destruct (transform_value s ds X k EX Hk) as [Hks V]. rewrite <- (HX k Hk), <- (spec_dft s k Hks), <- V. apply surjective_pairing.
Qed.

Lemma fs_two rows0 : (2 <= length rows0)%nat -> exists sp, fs_init (CD2 rows0) None None = Ok sp /\
  fs_freq sp = map fst rows0 /\ fs_spec sp = map snd rows0 /\ fs_npts sp = length rows0 /\ fs_df sp = nth 1 (map fst rows0) 0 - nth 0 (map fst rows0) 0.
Proof.
  intros H. destruct (fs_init (CD2 rows0) None None) as [sp|e] eqn:E.
  - exists sp. split; [reflexivity|]. apply C84_attributes in E as (r & d & K & E1 & E2 & E3 & E4 & E5 & _). cbn [kept] in K. destruct K as (_ & -> & ->). auto.
  - exfalso. apply C84_errors in E. destruct rows0 as [|a [|b l]]; cbn in H; try lia.
Qed.

Lemma nth_map_fst {A B} (l : list (A * B)) k a b : nth k (map fst l) a = fst (nth k l (a, b)).
Proof. exact (map_nth fst l (a, b) k). Qed.
Lemma nth_map_snd {A B} (l : list (A * B)) k a b : nth k (map snd l) b = snd (nth k l (a, b)).
Proof. exact (map_nth snd l (a, b) k). Qed.

(** The one-sided spectrum of a motion of two samples has one row, which cannot be made into
    a spectrum object; every other motion has a spectrum object.  Its values are the Fourier
    sums of the acceleration history (or their moduli), labelled one bin too high. *)
Theorem C92_fourier : forall sh m (rv ds : bool), live sh m ->
  let s := sig_at sh (m_accel m) in let n := if ds then length s else Nat.div (length s + 1) 2 in
  ((length s = 2)%nat /\ ds = false -> gm_fourier sh m rv ds = Err ValueError) /\
  (((3 <= length s)%nat \/ ds = true) -> exists sp, gm_fourier sh m rv ds = Ok sp /\ fs_npts sp = n /\ length (fs_freq sp) = n /\ length (fs_spec sp) = n /\
     fs_df sp = 1 / (INR (length s) * step_of s) /\
     forall k, (k < n)%nat -> nth k (fs_freq sp) 0 = (INR k + 1) / (INR (length s) * step_of s) /\
       nth k (fs_spec sp) (RtoC 0) = (if rv then RtoC (Cmod (spec s k)) else spec s k)).
Proof.
  intros sh m rv ds HL s n. destruct (fourier_ok s ds (proj2 HL)) as (X & EX & LX & HX). change (rows (length s) ds) with n in LX.
  set (Y := if rv then map (fun p => (fst p, RtoC (snd p))) (map (fun p => (fst p, Cmod (snd p))) X) else X).
  assert (EG : gm_fourier sh m rv ds = fs_init (CD2 Y) None None).
  { unfold gm_fourier, fourier_amplitude. fold s. rewrite EX. cbn [bind]. unfold Y. destruct rv; reflexivity. }
  assert (LY : length Y = n) by (unfold Y; destruct rv; rewrite ?map_length; exact LX).
  assert (HY : forall k, (k < n)%nat -> nth k Y (0, RtoC 0) = ((INR k + 1) / (INR (length s) * step_of s), if rv then RtoC (Cmod (spec s k)) else spec s k)).
  { intros k Hk. unfold Y. destruct rv; [|apply HX; lia]. rewrite map_map. cbn [fst snd].
    rewrite (nth_indep _ _ ((fun x : R * C => (fst x, RtoC (Cmod (snd x)))) (0, RtoC 0))) by (rewrite map_length; lia).
    rewrite (map_nth (fun x : R * C => (fst x, RtoC (Cmod (snd x)))) X (0, RtoC 0) k), HX by lia. reflexivity. }
  rewrite EG. clear EG. clearbody Y. split.
  - intros [H2 ->]. assert (N1 : n = 1%nat) by (unfold n; rewrite H2; reflexivity). rewrite N1 in LY. clear - LY. destruct Y as [|y [|z Y']]; try discriminate.
    apply C84_errors. left. auto.
  - intros H. assert (Hn : (2 <= n)%nat).
    { destruct HL as [_ HL]. unfold n. destruct ds; [exact HL|]. destruct H as [H|H]; [|discriminate]. apply (Nat.div_le_lower_bound (length s + 1) 2 2); lia. }
    destruct (fs_two Y) as (sp & -> & E1 & E2 & E3 & E4); [lia|]. exists sp. split; [reflexivity|]. rewrite E1, E2, E3, E4, !map_length, LY.
    split; [reflexivity|]. split; [reflexivity|]. split; [reflexivity|]. split.
    + rewrite !(nth_map_fst Y _ 0 (RtoC 0)), !HY by lia. cbn [fst INR]. unfold Rdiv. ring.
    + intros k Hk. rewrite (nth_map_fst Y _ 0 (RtoC 0)), (nth_map_snd Y _ 0 (RtoC 0)), HY by exact Hk. split; reflexivity.
Qed.

(** The spectrum of moduli and the complex spectrum have the same frequencies and the same
    amplitudes; the former has phase zero throughout. *)
Theorem C92_fourier_real_or_complex : forall sh m ds a z, live sh m -> gm_fourier sh m true ds = Ok a -> gm_fourier sh m false ds = Ok z ->
  fs_freq a = fs_freq z /\ amplitude a = amplitude z /\ iscomplex a = false /\ (forall p, In p (phase a) -> p = 0).
Proof.
  intros sh m ds a z HL Ea Ez. destruct (fourier_ok (sig_at sh (m_accel m)) ds (proj2 HL)) as (X & EX & _).
  unfold gm_fourier, fourier_amplitude in Ea, Ez. rewrite EX in Ea, Ez. cbn [bind] in Ea, Ez. rewrite map_map in Ea.
  apply C84_attributes in Ea as (ra & da & Ka & _ & _ & _ & Fa & Sa & _). apply C84_attributes in Ez as (rz & dz & Kz & _ & _ & _ & Fz & Sz & _).
  cbn [kept] in Ka, Kz. destruct Ka as (_ & -> & _). destruct Kz as (_ & -> & _). unfold amplitude, phase, iscomplex. rewrite Fa, Fz, Sa, Sz. rewrite !map_map. cbn [fst snd].
  split; [reflexivity|]. split; [apply map_ext; intros p; rewrite Cmod_R; apply Rabs_pos_eq, Cmod_ge_0|]. split.
  - match goal with |- ?b = false => destruct b eqn:Q; [|reflexivity] end. apply existsb_exists in Q as (w & Hw & Q). apply in_map_iff in Hw as (q & <- & _). cbn in Q. destruct (Reqb_spec 0 0); [discriminate|lra].
  - intros p Hp. apply in_map_iff in Hp as (q & <- & _). rewrite carg_real. destruct (Rltb_spec (Cmod (snd q)) 0) as [N|N]; [pose proof (Cmod_ge_0 (snd q)); lra|reflexivity].
Qed.

(** Response spectra of a motion scaled by a factor are those of the motion times its
    absolute value. *)
Theorem C92_response_scales : forall sh m c Tmin Tmax n xi k par sh' m', live sh m -> completes n par ->
  scale_motion sh m c None = (sh', Ok m') ->
  match gm_response_spectra sh m Tmin Tmax n xi k par, gm_response_spectra sh' m' Tmin Tmax n xi k par with
  | Ok r, Ok r' => s_Tn r' = s_Tn r /\ s_fn r' = s_fn r /\
      forall i, (i < n)%nat -> exists p, nth i (s_rows r) None = Some p /\ nth i (s_rows r') None = Some (scale_peaks (Rabs c) p)
  | Err e, Err e' => e = e'
  | _, _ => False
  end.
Proof.
  intros sh m c Tmin Tmax n xi k par sh' m' HL Hc E. unfold scale_motion in E.
  set (s := sig_at sh (m_accel m)) in *. set (y := map (fun tv : R * R => (fst tv, snd tv * c)) s) in *.
  destruct (init_new sh y) as (s2 & m2 & E2 & M); [unfold y; rewrite map_length; apply HL|]. pose proof (eq_trans (eq_sym E2) E) as Q. injection Q as <- <-.
  unfold gm_response_spectra. rewrite (mo_accel _ _ _ _ M). fold s.
  assert (Ey : y = scaled c s) by (unfold y, scaled; apply map_ext; intros []; cbn; f_equal; ring). rewrite Ey. apply C22_scales, Hc.
Qed.

(** The periods run from the shortest to the longest asked for, evenly on a logarithmic scale;
    each ordinate is a largest sampled value of the exact motion of the oscillator of that
    period and damping on every k-th sample of the motion. *)
Theorem C92_response_exact : forall sh m Tmin Tmax n xi k par r i, 0 < Tmin -> 0 < Tmax -> 0 <= xi < 1 -> completes n par ->
  gm_response_spectra sh m Tmin Tmax n xi k par = Ok r -> (i < n)%nat ->
  let s := sig_at sh (m_accel m) in
  let dt := Tk s k 1 - Tk s k 0 in
  let a := every k (vals s) in
  let w := 2 * PI / nth i (s_Tn r) 0 in
  0 < dt ->
  length (s_Tn r) = n /\ nth 0 (s_Tn r) 0 = Tmin /\ ((2 <= n)%nat -> nth (n - 1) (s_Tn r) 0 = Tmax) /\
  exists p, nth i (s_rows r) None = Some p /\
    (exists u v, shaken w xi dt a u v) /\
    forall u v, shaken w xi dt a u v ->
      peak_of (fun j => u (INR j * dt)) (length a) (p_SD p) /\
      peak_of (fun j => v (INR j * dt)) (length a) (p_SV p).
Proof.
  intros sh m Tmin Tmax n xi k par r i H1 H2 Hx Hc E Hi s dt a w Hd. unfold gm_response_spectra in E. fold s in E.
  destruct (C22_periods s Tmin Tmax n xi k par r H1 H2 E) as (A & _ & B & C & _). split; [exact A|]. split; [exact B|]. split; [exact C|].
  destruct (C22_exact s Tmin Tmax n xi k par r i H1 H2 Hx Hc E Hi Hd) as (p & Ep & Ex & U). exists p. split; [exact Ep|]. split; [exact Ex|].
  intros u v Huv. destruct (U u v Huv) as (P1 & P2 & _). split; [exact P1|exact P2].
Qed.
(** Using every k-th sample is the same as thinning the record first. *)
Theorem C92_response_thinned : forall sh m sh' m' Tmin Tmax n xi k par, (0 < k)%nat -> sig_at sh' (m_accel m') = every k (sig_at sh (m_accel m)) ->
  gm_response_spectra sh m Tmin Tmax n xi k par = gm_response_spectra sh' m' Tmin Tmax n xi 1 par /\ gm_response_spectra sh m Tmin Tmax n xi 0 par = Err ValueError.
Proof.
  intros sh m sh' m' Tmin Tmax n xi k par Hk E. unfold gm_response_spectra. rewrite E. split; [apply C22_subsampling, Hk|reflexivity].
Qed.

(** Four samples a second apart. *)
Definition rec4 : signal := [(0, 1); (1, 0); (2, -1); (3, 0)].
Lemma rec4_live : exists sh m, gm_init [rec4] 0 U_m T_accel = (sh, Ok m) /\ live sh m /\ sig_at sh (m_accel m) = rec4.
Proof.
  destruct (init_new [] rec4) as (sh & m & E & M); [cbn; lia|]. exists sh, m. split; [exact E|].
  pose proof (mo_accel _ _ _ _ M) as A. split; [|exact A]. split; [|rewrite A; cbn; lia].
  destruct (Nat.lt_ge_cases (m_accel m) (length sh)) as [|G]; [assumption|]. unfold sig_at in A. rewrite nth_overflow in A by exact G. discriminate.
Qed.
Example C92_instance : exists sh m, live sh m /\ 0 < step_of (sig_at sh (m_accel m)) /\ 1 <= 2 * step_of (sig_at sh (m_accel m)) * 1 /\
  0 < 2 * step_of (sig_at sh (m_accel m)) * (1 / 4) < 1 /\ (3 <= length (sig_at sh (m_accel m)))%nat.
Proof.
  destruct rec4_live as (sh & m & _ & L & A). exists sh, m. split; [exact L|]. rewrite A.
  assert (S : step_of rec4 = 1) by (unfold step_of, rec4; cbn; lra). rewrite S. split; [lra|]. split; [lra|]. split; [lra|]. cbn; lia.
Qed.
