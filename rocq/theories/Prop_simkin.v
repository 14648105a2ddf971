(** C24, continued: relations between the histories returned by the every-layer linear
    simulation, and superposition of input motions. *)
From Coq Require Import Reals List Bool ZArith Lia Lra Psatz.
From Coquelicot Require Import Coquelicot.
From Coq Require Import List.
From Verif Require Import Base M_generic P_generic M_profile P_profile Prop_profile M_vs_profile P_vs_profile M_motion M_interp P_interp M_dft P_dft M_spectra P_spectra M_linear P_linear Prop_linear M_simlin P_simlin Prop_simlin.
Import ListNotations.
Open Scope R_scope.

Definition at2 (x : list (list R)) (k i : nat) : R := nth i (nth k x []) 0.

Lemma firstn_trunc {A} (l : list A) n i : (i <= n)%nat -> firstn i (firstn n l) = firstn i l.
Proof. intros H. rewrite firstn_firstn. f_equal. lia. Qed.
Lemma nth_firstn {A} (l : list A) n i d : (i < n)%nat -> nth i (firstn n l) d = nth i l d.
Proof.
  intros H. destruct (Nat.lt_ge_cases i (length l)) as [L|L].
  - rewrite <- (firstn_skipn n l) at 2. rewrite app_nth1; [reflexivity|]. rewrite firstn_length. lia.
  - rewrite !nth_overflow; [reflexivity|exact L|rewrite firstn_length; lia].
Qed.
Lemma integrate_nth dt x i : (i < length x)%nat -> nth i (integrate dt x) 0 = dt * rsum (firstn (S i) x).
Proof.
  intros H. unfold integrate. rewrite (map_nth' _ _ i 0) by (unfold cumsum; rewrite cumsum_from_length; exact H). unfold cumsum. rewrite cumsum_from_nth by exact H. lra.
Qed.
Lemma detrend_nth d i : (i < length d)%nat -> nth i (detrend_end d) 0 = nth i d 0 - INR (S i) / (INR (length d) + 1) * last d 0.
Proof. intros H. unfold detrend_end. rewrite nth_map_seq by exact H. reflexivity. Qed.
Lemma strain_nth x y h i : length x = length y -> nth i (strain_col x y h) 0 = (nth i x 0 - nth i y 0) / h.
Proof.
  intros L. unfold strain_col. destruct (Nat.lt_ge_cases i (length x)) as [H|H].
  - rewrite (map_nth' _ _ i (0, 0)) by (rewrite combine_length; lia). rewrite combine_nth by exact L. reflexivity.
  - rewrite !nth_overflow; [unfold Rdiv; ring| | |]; rewrite ?map_length, ?combine_length; lia.
Qed.

(** Velocities are running sums of accelerations, displacements running sums of
    velocities from which a straight line is removed; a strain is the difference of the
    displacements above and below over the thickness.  For a record of odd length the
    line removed is [(i+1)/(T+1)] of the last displacement, so that a fraction of it
    remains. *)
Definition kinematic (s : signal) (dt : R) (r : simres) : Prop :=
  let n := length (sr_profile r) in let T := length s in
  (forall k i, (k < n)%nat -> (i < T)%nat -> at2 (sr_v r) k i = dt * rsum (firstn (S i) (nth k (sr_a r) []))) /\
  (forall k, (k < n)%nat -> exists D, (forall i, (i < T)%nat ->
      at2 (sr_d r) k i = dt * rsum (firstn (S i) (nth k (sr_v r) [])) - INR (S i) / (INR (length (padded s)) + 1) * D) /\
    (Nat.Odd T -> D = dt * rsum (nth k (sr_v r) []) /\ at2 (sr_d r) k (T - 1) = D / (INR T + 1))) /\
  (forall k i, (S k < n)%nat -> (i < T)%nat ->
      at2 (sr_gamma r) k i = (at2 (sr_d r) k i - at2 (sr_d r) (S k) i) / r_h (nth k (sr_profile r) (mkrow 0 0 []))).
Lemma outcome_kinematic s p b dt : runs s p b -> kinematic s dt (outcome s p dt b).
Proof.
  intros (L & Cl & So & HB & NP). destruct (run_N_spec s L) as (O & EN & N3). cbv beta delta [kinematic]. change (sr_profile (outcome s p dt b)) with p. intros n T.
  assert (TN : (T <= run_N s)%nat) by (rewrite EN; unfold T; destruct Nat.even; lia).
  set (ls := map elay_of p) in *. set (A := run_A s) in *. set (N := run_N s) in *.
  assert (LA : forall k, length (acc_of N dt ls b A k) = N) by (intros; apply acc_length, L).
  assert (LV : forall k, length (integrate dt (acc_of N dt ls b A k)) = N) by (intros; rewrite integrate_length; apply LA).
  assert (LD : forall k, length (dis_of N dt ls b A k) = N) by (intros; apply dis_length, L).
  assert (LG : forall k, length (gam_of N dt ls b A k) = N) by (intros; apply gam_length, L).
  assert (Sa : forall k, (k < n)%nat -> nth k (sr_a (outcome s p dt b)) [] = firstn T (acc_of N dt ls b A k)).
  { intros k H. cbn [sr_a outcome]. rewrite nth_seq_map by exact H. apply trim_firstn; [exact L|apply LA]. }
  assert (Sv : forall k, (k < n)%nat -> nth k (sr_v (outcome s p dt b)) [] = firstn T (integrate dt (acc_of N dt ls b A k))).
  { intros k H. cbn [sr_v outcome]. rewrite nth_seq_map by exact H. apply trim_firstn; [exact L|apply LV]. }
  assert (Sd : forall k, (k < n)%nat -> nth k (sr_d (outcome s p dt b)) [] = firstn T (dis_of N dt ls b A k)).
  { intros k H. cbn [sr_d outcome]. rewrite nth_seq_map by exact H. apply trim_firstn; [exact L|apply LD]. }
  assert (Sg : forall k, (S k < n)%nat -> nth k (sr_gamma (outcome s p dt b)) [] = firstn T (gam_of N dt ls b A k)).
  { intros k H. cbn [sr_gamma outcome]. rewrite nth_seq_map by (unfold n in H; lia). apply trim_firstn; [exact L|apply LG]. }
  split; [|split].
  - intros k i Hk Hi. unfold at2. rewrite Sa, Sv by exact Hk. rewrite nth_firstn by exact Hi. rewrite integrate_nth by (rewrite LA; lia). rewrite firstn_trunc by lia. reflexivity.
  - intros k Hk. exists (last (integrate dt (integrate dt (acc_of N dt ls b A k))) 0).
    assert (DI : forall i, (i < T)%nat -> at2 (sr_d (outcome s p dt b)) k i =
      dt * rsum (firstn (S i) (nth k (sr_v (outcome s p dt b)) [])) - INR (S i) / (INR (length (padded s)) + 1) * last (integrate dt (integrate dt (acc_of N dt ls b A k))) 0).
    { intros i Hi. unfold at2. rewrite Sd, Sv by exact Hk. rewrite nth_firstn by exact Hi. unfold dis_of. rewrite detrend_nth by (rewrite integrate_length, LV; lia).
      rewrite integrate_length, LV, integrate_nth by (rewrite LV; lia). rewrite firstn_trunc by lia. reflexivity. }
    split; [exact DI|].
    intros OT. assert (ET : N = T).
    { rewrite EN. destruct (Nat.even (length s)) eqn:Ev; [|reflexivity]. apply Nat.even_spec in Ev. destruct OT as [a Ha], Ev as [c Hc]. unfold T in Ha. lia. }
    assert (ED2 : last (integrate dt (integrate dt (acc_of N dt ls b A k))) 0 = dt * rsum (nth k (sr_v (outcome s p dt b)) [])).
    { rewrite last_nth_l, integrate_length, LV, integrate_nth by (rewrite LV; lia). rewrite Sv by exact Hk. rewrite <- ET. rewrite !firstn_all2 by (rewrite LV; lia). reflexivity. }
    split; [exact ED2|]. rewrite DI by (unfold T; lia). rewrite ED2. replace (S (T - 1)) with T by (unfold T; lia). rewrite (firstn_all2 (n := T)) by (rewrite Sv by exact Hk; rewrite firstn_length; lia).
    change (length (padded s)) with N. rewrite ET. pose proof (pos_INR T). field. lra.
  - intros k i Hk Hi. unfold at2. rewrite Sg by exact Hk. rewrite !Sd by lia. rewrite !nth_firstn by exact Hi. unfold gam_of. rewrite strain_nth by (rewrite !LD; reflexivity).
    f_equal. unfold ls. change (mkelay 0 0 0 0) with (mkelay 0 0 0 0). rewrite (map_nth' elay_of p k (mkrow 0 0 [])) by (unfold n in Hk; lia). reflexivity.
Qed.
Theorem C24_kinematics : forall t s b r dt, table_wf t -> linear t s b = Ok r -> first_step s = Ok dt -> kinematic s dt r.
Proof.
  intros t s b r dt Wf E ED. destruct (linear_inv t s b r Wf E) as (dt' & p & ED' & ES & -> & RN).
  rewrite ED in ED'. injection ED' as <-. apply outcome_kinematic, RN.
Qed.

(** The peak tables hold the depths and the peaks of the histories. *)
Definition is_peak (x : list R) (m : R) : Prop := Forall (fun v => Rabs v <= m) x /\ exists v, In v x /\ Rabs v = m.
Lemma max_abs_peak x : x <> [] -> is_peak x (max_abs x).
Proof.
  intros H. split; [apply Forall_forall; intros v; apply max_abs_ge|]. destruct (max_abs_in x H) as (v & I & E). exists v. split; [exact I|symmetry; exact E].
Qed.
Lemma nth_nonempty (s : signal) (x : list (list R)) k : Forall (fun c => length c = length s) x -> (2 <= length s)%nat -> (k < length x)%nat -> nth k x [] <> [].
Proof. intros F L H E. rewrite Forall_forall in F. assert (I : In (nth k x []) x) by (apply nth_In; exact H). apply F in I. rewrite E in I. cbn in I. lia. Qed.

Theorem C24_peaks : forall t s b r, table_wf t -> linear t s b = Ok r ->
  let n := length (sr_profile r) in
  (forall k, (k < n)%nat -> exists a v d, nth k (sr_max_avd r) (0, (0, 0, 0)) = (rsum (firstn k (map r_h (sr_profile r))), (a, v, d)) /\
     is_peak (nth k (sr_a r) []) a /\ is_peak (nth k (sr_v r) []) v /\ is_peak (nth k (sr_d r) []) d) /\
  (forall k, (S k < n)%nat -> exists g u, nth k (sr_max_gt r) (0, (0, 0)) =
       (rsum (firstn k (map r_h (sr_profile r))) + nth k (map r_h (sr_profile r)) 0 / 2, (g, u)) /\
     is_peak (nth k (sr_gamma r) []) g /\ is_peak (nth k (sr_tau r) []) u).
Proof.
  intros t s b r Wf E n. destruct (C56_shapes t s b r Wf E) as (_ & (La & Lv & Ld & _) & (Lg & Lu & _) & FA & _).
  destruct (linear_inv t s b r Wf E) as (dt & p & ED & ES & Er & L & Cl & So & HB & NP). fold n in La, Lv, Ld, Lg, Lu.
  apply Forall_app in FA as [Fa FA]. apply Forall_app in FA as [Fv FA]. apply Forall_app in FA as [Fd FA]. apply Forall_app in FA as [Fg Fu].
  assert (Em : sr_max_avd r = combine (z_top_from 0 (map r_h (sr_profile r))) (combine (combine (map max_abs (sr_a r)) (map max_abs (sr_v r))) (map max_abs (sr_d r)))) by (rewrite Er; reflexivity).
  assert (Eg : sr_max_gt r = combine (removelast (z_mid_from 0 (map r_h (sr_profile r)))) (combine (map max_abs (sr_gamma r)) (map max_abs (sr_tau r)))) by (rewrite Er; reflexivity).
  assert (ZT : forall h z, length (z_top_from z h) = length h) by (induction h as [|x h IH]; intros z; cbn; [reflexivity|rewrite IH; reflexivity]).
  assert (ZM : forall h z, length (z_mid_from z h) = length h) by (induction h as [|x h IH]; intros z; cbn; [reflexivity|rewrite IH; reflexivity]).
  assert (ZTn : forall h z k, (k < length h)%nat -> nth k (z_top_from z h) 0 = z + rsum (firstn k h)).
  { induction h as [|x h IH]; intros z k H; [cbn in H; lia|]. destruct k; cbn [z_top_from nth firstn rsum]; [lra|]. rewrite IH by (cbn in H; lia). lra. }
  assert (ZMn : forall h z k, (k < length h)%nat -> nth k (z_mid_from z h) 0 = z + rsum (firstn k h) + nth k h 0 / 2).
  { induction h as [|x h IH]; intros z k H; [cbn in H; lia|]. destruct k; cbn [z_mid_from nth firstn rsum]; [lra|]. rewrite IH by (cbn in H; lia). lra. }
  assert (MN : forall x k, (k < length x)%nat -> nth k (map max_abs x) 0 = max_abs (nth k x [])) by (intros x k H; apply map_nth'; exact H).
  split.
  - intros k Hk. exists (max_abs (nth k (sr_a r) [])), (max_abs (nth k (sr_v r) [])), (max_abs (nth k (sr_d r) [])). split.
    + rewrite Em. rewrite combine_nth by (rewrite ZT, !combine_length, !map_length; fold n; lia). rewrite combine_nth by (rewrite combine_length, !map_length; lia).
      rewrite combine_nth by (rewrite !map_length; lia). rewrite !MN by lia. rewrite ZTn by (rewrite map_length; exact Hk). rewrite Rplus_0_l. reflexivity.
    + repeat split; apply max_abs_peak; eapply nth_nonempty; eauto; lia.
  - intros k Hk. exists (max_abs (nth k (sr_gamma r) [])), (max_abs (nth k (sr_tau r) [])). split.
    + rewrite Eg. rewrite combine_nth by (rewrite removelast_length, ZM, !combine_length, !map_length; fold n; lia). rewrite combine_nth by (rewrite !map_length; lia).
      rewrite !MN by lia. rewrite nth_removelast by (rewrite ZM, map_length; fold n; lia). rewrite ZMn by (rewrite map_length; fold n; lia). rewrite Rplus_0_l. reflexivity.
    + repeat split; apply max_abs_peak; eapply nth_nonempty; eauto; lia.
Qed.

Lemma Cconj_plus u v : Cconj (Cplus u v) = Cplus (Cconj u) (Cconj v).
Proof. unfold Cconj, Cplus. cbn [fst snd]. f_equal. ring. Qed.

(** The spectrum of a stress history is the complex modulus [G (1 + 2 i D)], with
    [G = rho Vs^2], times that of the strain (record of odd length, so that nothing was
    cut off): positive frequencies; at zero frequency the modulus is real. *)
Lemma stress_spectrum l g : Nat.Odd (length g) ->
  let X := dft (map RtoC g) in let Y := dft (map RtoC (stress_col l g)) in
  let m := Cmult (RtoC (e_G l)) (Cplus (RtoC 1) (Cmult (RtoC 2) (Cmult Ci (RtoC (e_D l))))) in
  nth 0 Y (RtoC 0) = Cmult (RtoC (e_G l)) (nth 0 X (RtoC 0)) /\
  forall i, (0 < i)%nat -> (2 * i < length g)%nat -> nth i Y (RtoC 0) = Cmult m (nth i X (RtoC 0)).
Proof.
  intros [j Hj] X Y m. set (first := map (fun z => Cmult z m) (firstn (j + 1) X)).
  assert (EY0 : Y = dft (map RtoC (map Re (idft (set_real_head (first ++ rev (map Cconj (tl first)))))))).
  { unfold Y, stress_col. cbv zeta. fold m. fold X. rewrite Hj. replace (2 * j + 1 + 1)%nat with ((j + 1) * 2)%nat by lia. rewrite Nat.div_mul by lia. reflexivity. }
  clearbody Y.
  assert (LX : length X = (2 * j + 1)%nat) by (unfold X; rewrite dft_length, map_length; exact Hj).
  assert (LF : length first = S j) by (unfold first; rewrite map_length, firstn_length, LX; lia).
  assert (FN : forall i, (i <= j)%nat -> nth i first (RtoC 0) = Cmult m (nth i X (RtoC 0))).
  { intros i Hi. unfold first. rewrite (map_nth' _ _ i (RtoC 0)) by (rewrite firstn_length, LX; lia). rewrite nth_firstn by lia. apply Cmult_comm. }
  destruct first as [|z0 tl0] eqn:EF; [cbn in LF; lia|]. cbn [tl app set_real_head] in EY0. cbn [length] in LF. injection LF as LF.
  set (Z := RtoC (Re z0) :: tl0 ++ rev (map Cconj tl0)) in EY0.
  assert (LZ : length Z = (2 * j + 1)%nat) by (unfold Z; cbn [length]; rewrite app_length, rev_length, map_length; lia).
  assert (ZT : forall i, (i < j)%nat -> nth (S i) Z (RtoC 0) = nth i tl0 (RtoC 0)) by (intros i Hi; unfold Z; cbn [nth]; apply app_nth1; lia).
  assert (ZR : forall i, (i < j)%nat -> nth (2 * j - i) Z (RtoC 0) = Cconj (nth i tl0 (RtoC 0))).
  { intros i Hi. unfold Z. replace (2 * j - i)%nat with (S (2 * j - i - 1)) by lia. cbn [nth]. rewrite app_nth2 by lia. rewrite rev_nth by (rewrite map_length; lia).
    rewrite map_length. replace (length tl0 - S (2 * j - i - 1 - length tl0))%nat with i by lia. apply map_nth'. lia. }
  assert (SZ : symmetric Z).
  { split; [intros _; apply Cconj_R|]. intros k Hk. rewrite LZ in *. destruct (Nat.le_gt_cases k j) as [H|H].
    - replace k with (S (k - 1)) at 2 by lia. rewrite ZT by lia. replace (2 * j + 1 - k)%nat with (2 * j - (k - 1))%nat by lia. apply ZR. lia.
    - replace (2 * j + 1 - k)%nat with (S (2 * j - k)) by lia. rewrite ZT by lia. replace k with (2 * j - (2 * j - k))%nat at 2 by lia. rewrite ZR by lia. symmetry. apply Cconj_invol. }
  assert (EY : Y = Z) by (rewrite EY0, real_idft by exact SZ; apply dft_idft). rewrite EY. split.
  - unfold Z. cbn [nth]. specialize (FN 0%nat ltac:(lia)). cbn [nth] in FN. rewrite FN.
    assert (R0 : Im (nth 0 X (RtoC 0)) = 0). { destruct (dft_symmetric g) as [D0 _]. fold X in D0. assert (NX : X <> []) by (intros H; rewrite H in LX; cbn in LX; lia). specialize (D0 NX). apply (f_equal Im) in D0. unfold Cconj, Im in *. cbn [snd] in D0. lra. }
    apply injective_projections; unfold m, Cmult, Cplus, Ci, RtoC, Re, Im in *; cbn [fst snd] in *; rewrite R0; ring.
  - intros i H0 H1. replace i with (S (i - 1)) at 1 by lia. rewrite ZT by lia. rewrite <- FN by lia. destruct i; [lia|]. cbn [nth Nat.sub]. rewrite Nat.sub_0_r. reflexivity.
Qed.

Theorem C24_stress_strain : forall t s b r, table_wf t -> linear t s b = Ok r -> Nat.Odd (length s) ->
  forall k, (S k < length (sr_profile r))%nat ->
  let l := lay_of_row (nth k (sr_profile r) (mkrow 0 0 [])) in
  let G := l_rho l * l_vs l ^ 2 in
  let X := dft (map RtoC (nth k (sr_gamma r) [])) in let Y := dft (map RtoC (nth k (sr_tau r) [])) in
  nth 0 Y (RtoC 0) = Cmult (RtoC G) (nth 0 X (RtoC 0)) /\
  forall m, (0 < m)%nat -> (2 * m < length s)%nat ->
    nth m Y (RtoC 0) = Cmult (Cmult (RtoC G) (Cplus (RtoC 1) (Cmult (RtoC 2) (Cmult Ci (RtoC (l_xi l)))))) (nth m X (RtoC 0)).
Proof.
  intros t s b r Wf E OT k Hk. destruct (linear_inv t s b r Wf E) as (dt & p & ED & ES & -> & L & Cl & So & HB & NP).
  change (sr_profile (outcome s p dt b)) with p in *. intros l G X Y. destruct (run_N_spec s L) as (O & EN & N3).
  assert (Ev : Nat.even (length s) = false). { destruct (Nat.even (length s)) eqn:Ev; [|reflexivity]. apply Nat.even_spec in Ev. destruct OT as [a Ha], Ev as [c Hc]. lia. }
  rewrite Ev in EN. unfold X, Y. cbn [sr_gamma sr_tau outcome]. rewrite !nth_seq_map by lia. rewrite Ev. cbn [trim].
  set (g := gam_of _ _ _ _ _ k). assert (Lg : length g = length s) by (rewrite <- EN; apply gam_length, L).
  unfold tau_of. fold g. rewrite (map_nth' elay_of p k (mkrow 0 0 [])) by lia. rewrite <- Lg. apply (stress_spectrum (elay_of (nth k p (mkrow 0 0 []))) g). rewrite Lg. exact OT.
Qed.

(** ** Superposition *)
Definition blend (a c : R) (x y : list R) : list R := map (fun p => a * fst p + c * snd p) (combine x y).
Definition blends (a c : R) (x y : list (list R)) : list (list R) := map (fun p => blend a c (fst p) (snd p)) (combine x y).
Definition blendC (a c : R) (x y : list C) : list C := map (fun p => Cplus (Cmult (RtoC a) (fst p)) (Cmult (RtoC c) (snd p))) (combine x y).

Section Blend.
  Variables a c : R.
  Lemma blend_length x y : length x = length y -> length (blend a c x y) = length x.
  Proof. intros H. unfold blend. rewrite map_length, combine_length. lia. Qed.
  Lemma blend_nth x y i : length x = length y -> nth i (blend a c x y) 0 = a * nth i x 0 + c * nth i y 0.
  Proof.
    revert y i. induction x as [|u x IH]; intros [|v y] [|i] L; try discriminate; cbn [blend combine map nth fst snd]; try ring. apply IH. cbn in L. lia.
  Qed.
  Lemma blendC_length x y : length x = length y -> length (blendC a c x y) = length x.
  Proof. intros H. unfold blendC. rewrite map_length, combine_length. lia. Qed.
  Lemma blendC_nth x y i : length x = length y -> nth i (blendC a c x y) (RtoC 0) = Cplus (Cmult (RtoC a) (nth i x (RtoC 0))) (Cmult (RtoC c) (nth i y (RtoC 0))).
  Proof.
    revert y i. induction x as [|u x IH]; intros [|v y] [|i] L; try discriminate; cbn [blendC combine map nth fst snd]; try ring. apply IH. cbn in L. lia.
  Qed.
  Lemma blend_eq x y z : length x = length y -> length z = length x -> (forall i, (i < length x)%nat -> nth i z 0 = a * nth i x 0 + c * nth i y 0) -> z = blend a c x y.
  Proof.
    intros L Lz H. apply (nth_ext _ _ 0 0); [rewrite blend_length; lia|]. intros i Hi. rewrite blend_nth by exact L. apply H. lia.
  Qed.
  Lemma blendC_eq x y z : length x = length y -> length z = length x -> (forall i, (i < length x)%nat -> nth i z (RtoC 0) = Cplus (Cmult (RtoC a) (nth i x (RtoC 0))) (Cmult (RtoC c) (nth i y (RtoC 0)))) -> z = blendC a c x y.
  Proof.
    intros L Lz H. apply list_eq_nth; [rewrite blendC_length; lia|]. intros i Hi. rewrite blendC_nth by exact L. apply H. lia.
  Qed.
  Lemma blend_RtoC x y : length x = length y -> map RtoC (blend a c x y) = blendC a c (map RtoC x) (map RtoC y).
  Proof.
    intros L. apply blendC_eq; rewrite ?map_length, ?blend_length by exact L; try assumption; try reflexivity. intros i Hi. rewrite !nth_RtoC, blend_nth by exact L. rewrite RtoC_plus, !RtoC_mult. reflexivity.
  Qed.
  Lemma blend_Re x y : length x = length y -> map Re (blendC a c x y) = blend a c (map Re x) (map Re y).
  Proof.
    intros L. apply blend_eq; rewrite ?map_length, ?blendC_length by exact L; try assumption; try reflexivity. intros i Hi. rewrite !(map_nth' Re _ i (RtoC 0)) by (rewrite ?blendC_length; lia). rewrite blendC_nth by exact L.
    rewrite Re_plus, !Re_mult, !Re_R, !Im_R. ring.
  Qed.
  Lemma blend_dft x y : length x = length y -> dft (blendC a c x y) = blendC a c (dft x) (dft y).
  Proof. apply dft_linear. Qed.
  Lemma blend_idft x y : length x = length y -> idft (blendC a c x y) = blendC a c (idft x) (idft y).
  Proof.
    intros L. apply blendC_eq; rewrite ?idft_length, ?blendC_length by exact L; try assumption; try reflexivity. intros i Hi. rewrite !idft_nth by (rewrite ?blendC_length; lia).
    rewrite blendC_length by exact L. rewrite <- L. rewrite (csum_ext _ _ (fun n => Cplus (Cmult (RtoC a) (Cmult (nth n x (RtoC 0)) (cis (angle (length x) n i)))) (Cmult (RtoC c) (Cmult (nth n y (RtoC 0)) (cis (angle (length x) n i))))))
      by (intros n Hn; rewrite blendC_nth by exact L; ring).
    rewrite csum_plus, !csum_scal. ring.
  Qed.
  Lemma blend_accel H X Y : length X = length Y -> length H = length X -> accel_col H (blendC a c X Y) = blend a c (accel_col H X) (accel_col H Y).
  Proof.
    intros L LH. unfold accel_col. fold (cmul H X) (cmul H Y) (cmul H (blendC a c X Y)).
    assert (E : cmul H (blendC a c X Y) = blendC a c (cmul H X) (cmul H Y)).
    { apply blendC_eq; rewrite ?cmul_length by (rewrite ?blendC_length; lia); try reflexivity. intros i Hi. rewrite !cmul_nth by (rewrite ?blendC_length; lia). rewrite blendC_nth by exact L. ring. }
    rewrite E, blend_idft, blend_Re; [reflexivity| |]; rewrite ?idft_length, ?cmul_length by (rewrite ?blendC_length; lia); reflexivity.
  Qed.
  Lemma blend_cumsum x : forall y s u, length x = length y -> cumsum_from (a * s + c * u) (blend a c x y) = blend a c (cumsum_from s x) (cumsum_from u y).
  Proof.
    induction x as [|v x IH]; intros [|w y] s u L; try discriminate; [reflexivity|]. unfold blend in *. cbn [combine map cumsum_from fst snd].
    replace (a * s + c * u + (a * v + c * w)) with (a * (s + v) + c * (u + w)) by ring. f_equal. apply IH. cbn in L. lia.
  Qed.
  Lemma blend_integrate dt x y : length x = length y -> integrate dt (blend a c x y) = blend a c (integrate dt x) (integrate dt y).
  Proof.
    intros L. unfold integrate, cumsum. replace 0 with (a * 0 + c * 0) at 1 by ring. rewrite blend_cumsum by exact L. unfold blend. rewrite combine_map, !map_map. apply map_ext. intros [u v]. cbn. ring.
  Qed.
  Lemma blend_detrend x y : length x = length y -> detrend_end (blend a c x y) = blend a c (detrend_end x) (detrend_end y).
  Proof.
    intros L. apply blend_eq; rewrite ?detrend_length, ?blend_length by exact L; try assumption; try reflexivity. intros i Hi. rewrite !detrend_nth by (rewrite ?blend_length; lia).
    rewrite blend_length by exact L. rewrite !last_nth_l. rewrite blend_length by exact L. rewrite !blend_nth by exact L. rewrite <- L. unfold Rdiv. ring.
  Qed.
  Lemma blend_strain x1 y1 x2 y2 h : length x1 = length y1 -> length x2 = length x1 -> length y2 = length x1 ->
    strain_col (blend a c x1 y1) (blend a c x2 y2) h = blend a c (strain_col x1 x2 h) (strain_col y1 y2 h).
  Proof.
    intros L1 L2 L3. apply blend_eq.
    - unfold strain_col. rewrite !map_length, !combine_length. lia.
    - unfold strain_col. rewrite !map_length, !combine_length, !blend_length by lia. reflexivity.
    - intros i _. rewrite !strain_nth by (rewrite ?blend_length; lia). rewrite !blend_nth by lia. unfold Rdiv. ring.
  Qed.
  Lemma blendC_firstn n x : forall y, firstn n (blendC a c x y) = blendC a c (firstn n x) (firstn n y).
  Proof. unfold blendC. intros y. rewrite firstn_map, combine_firstn. reflexivity. Qed.
  Lemma blendC_tl x y : tl (blendC a c x y) = blendC a c (tl x) (tl y).
  Proof. destruct x, y; try reflexivity. cbn [tl]. unfold blendC. destruct x; reflexivity. Qed.
  Lemma blendC_mul m x : forall y, map (fun z => Cmult z m) (blendC a c x y) = blendC a c (map (fun z => Cmult z m) x) (map (fun z => Cmult z m) y).
  Proof. intros y. unfold blendC. rewrite combine_map, !map_map. apply map_ext. intros [u v]. cbn [fst snd]. ring. Qed.
  Lemma blendC_conj x : forall y, map Cconj (blendC a c x y) = blendC a c (map Cconj x) (map Cconj y).
  Proof. intros y. unfold blendC. rewrite combine_map, !map_map. apply map_ext. intros [u v]. cbn [fst snd]. rewrite Cconj_plus, !Cconj_mult, !Cconj_R. reflexivity. Qed.
  Lemma combine_app {A B} (l1 : list A) : forall (m1 : list B) l2 m2, length l1 = length m1 -> combine (l1 ++ l2) (m1 ++ m2) = combine l1 m1 ++ combine l2 m2.
  Proof. induction l1 as [|u l1 IH]; intros [|v m1] l2 m2 L; try discriminate; [reflexivity|]. cbn [app combine]. f_equal. apply IH. cbn in L. lia. Qed.
  Lemma blendC_app x1 y1 x2 y2 : length x1 = length y1 -> blendC a c (x1 ++ x2) (y1 ++ y2) = blendC a c x1 y1 ++ blendC a c x2 y2.
  Proof. intros L. unfold blendC. rewrite combine_app by exact L. apply map_app. Qed.
  Lemma blendC_rev x : forall y, length x = length y -> rev (blendC a c x y) = blendC a c (rev x) (rev y).
  Proof.
    induction x as [|u x IH]; intros [|v y] L; try discriminate; [reflexivity|]. cbn [rev]. rewrite blendC_app by (rewrite !rev_length; cbn in L; lia). rewrite <- IH by (cbn in L; lia). reflexivity.
  Qed.
  Lemma blendC_srh x y : set_real_head (blendC a c x y) = blendC a c (set_real_head x) (set_real_head y).
  Proof.
    destruct x as [|u x], y as [|v y]; try reflexivity. unfold blendC. cbn [combine map set_real_head fst snd]. f_equal. rewrite Re_plus, !Re_mult, !Re_R, !Im_R.
    rewrite <- !RtoC_mult, <- RtoC_plus. f_equal. ring.
  Qed.
  Lemma blend_stress l x y : length x = length y -> stress_col l (blend a c x y) = blend a c (stress_col l x) (stress_col l y).
  Proof.
    intros L. unfold stress_col. cbv zeta. rewrite blend_length by exact L. rewrite <- L. rewrite blend_RtoC by exact L.
    assert (L1 : length (map RtoC x) = length (map RtoC y)) by (rewrite !map_length; exact L).
    rewrite blend_dft by exact L1. rewrite blendC_firstn, blendC_mul, blendC_tl, blendC_conj.
    set (X := map (fun z => Cmult z _) (firstn _ (dft (map RtoC x)))). set (Y := map (fun z => Cmult z _) (firstn _ (dft (map RtoC y)))).
    assert (LXY : length X = length Y) by (unfold X, Y; rewrite !map_length, !firstn_length, !dft_length, L1; reflexivity).
    assert (LT : length (map Cconj (tl X)) = length (map Cconj (tl Y))) by (rewrite !map_length; destruct X, Y; try discriminate; cbn in *; lia).
    rewrite blendC_rev by exact LT. rewrite <- blendC_app by exact LXY. rewrite blendC_srh.
    assert (LS : length (set_real_head (X ++ rev (map Cconj (tl X)))) = length (set_real_head (Y ++ rev (map Cconj (tl Y))))) by (rewrite !srh_length, !app_length, !rev_length, LXY, LT; reflexivity).
    rewrite blend_idft by exact LS. apply blend_Re. rewrite !idft_length. exact LS.
  Qed.
  Lemma blend_last x y : length x = length y -> last (blend a c x y) 0 = a * last x 0 + c * last y 0.
  Proof. intros L. rewrite !last_nth_l, blend_length, blend_nth by exact L. rewrite L. reflexivity. Qed.
  Lemma blend_app x1 y1 x2 y2 : length x1 = length y1 -> blend a c (x1 ++ x2) (y1 ++ y2) = blend a c x1 y1 ++ blend a c x2 y2.
  Proof. intros L. unfold blend. rewrite combine_app by exact L. apply map_app. Qed.
  Lemma blend_firstn n x y : firstn n (blend a c x y) = blend a c (firstn n x) (firstn n y).
  Proof. unfold blend. rewrite firstn_map, combine_firstn. reflexivity. Qed.
  Lemma blend_half x y : map (fun v => v / 2) (blend a c x y) = blend a c (map (fun v => v / 2) x) (map (fun v => v / 2) y).
  Proof. unfold blend. rewrite combine_map, !map_map. apply map_ext. intros [u v]. cbn [fst snd]. field. Qed.
  Lemma blends_seq f g n : blends a c (map f (seq 0 n)) (map g (seq 0 n)) = map (fun k => blend a c (f k) (g k)) (seq 0 n).
  Proof.
    unfold blends. rewrite combine_map, map_map. generalize (seq 0 n). intros q. induction q as [|k q IH]; [reflexivity|]. cbn [combine map fst snd]. f_equal. exact IH.
  Qed.
End Blend.

Lemma trim_blend a c ev x y : length x = length y -> trim ev (blend a c x y) = blend a c (trim ev x) (trim ev y).
Proof.
  intros L. destruct ev; [|reflexivity]. cbn [trim].
  assert (RF : forall l : list R, removelast l = firstn (length l - 1) l) by (intros l; rewrite removelast_firstn_len; f_equal; lia).
  rewrite !RF, blend_length, blend_firstn by exact L. rewrite L. reflexivity.
Qed.

(** All histories are linear in the record: the response to a combination of two
    records on the same instants is the combination of the responses, and profile,
    frequencies and transfer function do not depend on the record. *)
Theorem C24_superposition : forall t s1 s2 b a c r1 r2, table_wf t -> times s1 = times s2 ->
  linear t s1 b = Ok r1 -> linear t s2 b = Ok r2 ->
  exists r, linear t (combine (times s1) (blend a c (vals s1) (vals s2))) b = Ok r /\
    sr_a r = blends a c (sr_a r1) (sr_a r2) /\ sr_v r = blends a c (sr_v r1) (sr_v r2) /\ sr_d r = blends a c (sr_d r1) (sr_d r2) /\
    sr_gamma r = blends a c (sr_gamma r1) (sr_gamma r2) /\ sr_tau r = blends a c (sr_tau r1) (sr_tau r2) /\
    sr_profile r = sr_profile r1 /\ sr_freq r = sr_freq r1 /\ sr_tf r = sr_tf r1 /\
    sr_profile r2 = sr_profile r1 /\ sr_freq r2 = sr_freq r1 /\ sr_tf r2 = sr_tf r1.
Proof.
  intros t s1 s2 b a c r1 r2 Wf ET E1 E2. set (s := combine (times s1) (blend a c (vals s1) (vals s2))).
  assert (L12 : length s1 = length s2) by (rewrite <- !times_length, ET; reflexivity).
  assert (LV : length (vals s1) = length (vals s2)) by (rewrite !vals_length; exact L12).
  assert (LB : length (blend a c (vals s1) (vals s2)) = length s1) by (rewrite blend_length, vals_length by exact LV; reflexivity).
  assert (Ls : length s = length s1) by (unfold s; rewrite combine_length, times_length, LB; lia).
  assert (CB : forall (l : list R) (l' : list R), length l = length l' -> map fst (combine l l') = l /\ map snd (combine l l') = l').
  { induction l as [|u l IH]; intros [|v l'] H; try discriminate; [split; reflexivity|]. cbn [combine map fst snd]. destruct (IH l') as [A B]; [cbn in H; lia|]. rewrite A, B. split; reflexivity. }
  destruct (CB (times s1) (blend a c (vals s1) (vals s2))) as [Ts Vs]; [rewrite times_length, LB; reflexivity|]. fold s in Ts, Vs. change (map fst s) with (times s) in Ts. change (map snd s) with (vals s) in Vs.
  pose proof (proj1 (C56_accepts_iff t s1 b Wf) (ex_intro _ r1 E1)) as (V & C5 & L & init & lst & Er & Z & HB).
  assert (AC : acceptable t s b) by (split; [exact V|split; [exact C5|split; [lia|exists init, lst; auto]]]).
  destruct (proj2 (C56_accepts_iff t s b Wf) AC) as (r & E). exists r. split; [exact E|].
  destruct (linear_inv t s b r Wf E) as (dt & p & ED & ES & -> & _).
  destruct (linear_inv t s1 b r1 Wf E1) as (dt1 & p1 & ED1 & ES1 & -> & _ & _ & _ & _ & NP). destruct (linear_inv t s2 b r2 Wf E2) as (dt2 & p2 & ED2 & ES2 & -> & L2 & _).
  rewrite ES in ES1, ES2. injection ES1 as <-. injection ES2 as <-.
  assert (FS : forall u v : signal, times u = times v -> first_step u = first_step v) by (intros u v H; unfold first_step; rewrite H; reflexivity).
  rewrite (FS s s1 Ts) in ED. rewrite (FS s2 s1 (eq_sym ET)) in ED2. rewrite ED1 in ED, ED2. injection ED as <-. injection ED2 as <-.
  assert (EP : padded s = blend a c (padded s1) (padded s2)).
  { unfold padded. rewrite Ls, Vs, <- L12. destruct (Nat.even (length s1)); [|reflexivity]. rewrite blend_app by exact LV. rewrite blend_last by exact LV. reflexivity. }
  assert (LP : length (padded s1) = length (padded s2)) by (unfold padded; rewrite L12; destruct (Nat.even (length s2)); rewrite ?app_length, LV; reflexivity).
  assert (EN1 : run_N s = run_N s1) by (unfold run_N; rewrite EP, blend_length by exact LP; reflexivity).
  assert (EN2 : run_N s2 = run_N s1) by (unfold run_N; rewrite LP; reflexivity).
  destruct (run_N_spec s1 L) as (O & EN & N3).
  assert (EA : run_A s = blendC a c (run_A s1) (run_A s2)).
  { unfold run_A. rewrite EP, blend_half, blend_RtoC, blend_dft; [reflexivity| |]; rewrite !map_length; exact LP. }
  assert (LA : length (run_A s1) = length (run_A s2)) by (rewrite !run_A_length, EN2; reflexivity).
  set (N := run_N s1) in *. set (ls := map elay_of p).
  assert (Ac : forall k, acc_of N dt1 ls b (run_A s) k = blend a c (acc_of N dt1 ls b (run_A s1) k) (acc_of N dt1 ls b (run_A s2) k)).
  { intros k. unfold acc_of. rewrite EA. apply blend_accel; [exact LA|]. rewrite H_col_length by exact O. symmetry. apply run_A_length. }
  assert (L1 : forall k, length (acc_of N dt1 ls b (run_A s1) k) = N) by (intros k; apply acc_length, L).
  assert (L2' : forall k, length (acc_of N dt1 ls b (run_A s2) k) = N) by (intros k; rewrite <- EN2; apply acc_length, L2).
  assert (Ve : forall k, integrate dt1 (acc_of N dt1 ls b (run_A s) k) = blend a c (integrate dt1 (acc_of N dt1 ls b (run_A s1) k)) (integrate dt1 (acc_of N dt1 ls b (run_A s2) k))).
  { intros k. rewrite Ac. apply blend_integrate. rewrite L1, L2'. reflexivity. }
  assert (Di : forall k, dis_of N dt1 ls b (run_A s) k = blend a c (dis_of N dt1 ls b (run_A s1) k) (dis_of N dt1 ls b (run_A s2) k)).
  { intros k. unfold dis_of. rewrite Ve. rewrite blend_integrate by (rewrite !integrate_length, L1, L2'; reflexivity). apply blend_detrend. rewrite !integrate_length, L1, L2'. reflexivity. }
  assert (LD1 : forall k, length (dis_of N dt1 ls b (run_A s1) k) = N) by (intros; unfold dis_of; rewrite detrend_length, !integrate_length; apply L1).
  assert (LD2 : forall k, length (dis_of N dt1 ls b (run_A s2) k) = N) by (intros; unfold dis_of; rewrite detrend_length, !integrate_length; apply L2').
  assert (Ga : forall k, gam_of N dt1 ls b (run_A s) k = blend a c (gam_of N dt1 ls b (run_A s1) k) (gam_of N dt1 ls b (run_A s2) k)).
  { intros k. unfold gam_of. rewrite !Di. apply blend_strain; rewrite ?LD1, ?LD2; reflexivity. }
  assert (LG : forall k, length (gam_of N dt1 ls b (run_A s1) k) = N /\ length (gam_of N dt1 ls b (run_A s2) k) = N) by (intros; unfold gam_of, strain_col; rewrite !map_length, !combine_length, !LD1, !LD2; lia).
  assert (Ta : forall k, tau_of N dt1 ls b (run_A s) k = blend a c (tau_of N dt1 ls b (run_A s1) k) (tau_of N dt1 ls b (run_A s2) k)).
  { intros k. unfold tau_of. rewrite Ga. apply blend_stress. destruct (LG k) as [-> ->]. reflexivity. }
  assert (LTa : forall k, length (tau_of N dt1 ls b (run_A s1) k) = N /\ length (tau_of N dt1 ls b (run_A s2) k) = N) by (intros k; split; [apply tau_length, L|rewrite <- EN2; apply tau_length, L2]).
  cbn [sr_profile sr_a sr_v sr_d sr_gamma sr_tau sr_freq sr_tf outcome]. rewrite EN1, EN2, Ls, <- L12. fold N ls.
  repeat split; try reflexivity; rewrite blends_seq; apply map_ext; intros k.
  - rewrite Ac. apply trim_blend. rewrite L1, L2'. reflexivity.
  - rewrite Ve. apply trim_blend. rewrite !integrate_length, L1, L2'. reflexivity.
  - rewrite Di. apply trim_blend. rewrite LD1, LD2. reflexivity.
  - rewrite Ga. apply trim_blend. destruct (LG k) as [-> ->]. reflexivity.
  - rewrite Ta. apply trim_blend. destruct (LTa k) as [-> ->]. reflexivity.
Qed.
