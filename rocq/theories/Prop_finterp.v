(** C116: linear interpolation in double precision. *)
From Coq Require Import Reals List Bool ZArith Lia Lra Psatz.
From Flocq Require Import Core IEEE754.BinarySingleNaN Plus_error Relative.
From Verif Require Import Base M_float P_float Prop_fdepth Prop_fcount M_ftime Prop_ftime M_fquery Prop_fquery Prop_fvsz M_finterp.
Import ListNotations.
Open Scope R_scope.

(** Data that can be interpolated: as many ordinates as abscissae, all finite, the abscissae increasing. *)
Definition table (xp fp : list f64) : Prop :=
  xp <> [] /\ List.length xp = List.length fp /\ Forall (fun x => fin x = true) xp /\ Forall (fun x => fin x = true) fp /\
  forall i j, (i < j < List.length xp)%nat -> val (nth i xp f0) < val (nth j xp f0).

Lemma nth_fin l i : Forall (fun x => fin x = true) l -> fin (nth i l f0) = true.
Proof. intros H. destruct (Nat.lt_ge_cases i (List.length l)) as [L|L]; [rewrite Forall_forall in H; apply H, nth_In, L|rewrite nth_overflow by exact L; reflexivity]. Qed.
Lemma fin_nan x : fin x = true -> fnan x = false.
Proof. destruct x as [s|[|]| |s m e B]; intros H; try discriminate H; reflexivity. Qed.
Lemma le_last_val x v : fin x = true -> fin v = true -> (le_last x v = true <-> val x <= val v).
Proof.
  intros Fx Fv. unfold le_last. rewrite (fin_nan x Fx). cbn [andb orb]. rewrite orb_false_r. destruct (flt v x) eqn:E; cbn [negb].
  - apply flt_val in E; auto. split; [discriminate|lra].
  - split; [intros _|auto]. apply Rnot_lt_le. intros L. apply flt_val in L; auto. congruence.
Qed.
(** The search in finite increasing abscissae. *)
Lemma search_table xp fp x : table xp fp -> fin x = true ->
  (search_right xp x <= List.length xp)%nat /\ forall i, (i < List.length xp)%nat -> (val (nth i xp f0) <= val x <-> (i < search_right xp x)%nat).
Proof.
  intros (Ne & _ & Fx & _ & Inc) F.
  destruct (bisect_spec (S (List.length xp)) xp x 0 (List.length xp)) as [L K]; [lia|lia| |lia|lia|].
  - intros i j Hij E. apply le_last_val in E; [|apply nth_fin, Fx|exact F]. apply le_last_val; [apply nth_fin, Fx|exact F|].
    destruct (Nat.eq_dec i j) as [->|D]; [exact E|]. specialize (Inc i j ltac:(lia)). lra.
  - split; [exact L|]. intros i Hi. rewrite <- (le_last_val _ x (nth_fin xp i Fx) F). rewrite (K i Hi). apply Nat.ltb_lt.
Qed.
(** Which interval. *)
Lemma search_interval xp fp x j : table xp fp -> fin x = true -> (S j < List.length xp)%nat -> val (nth j xp f0) <= val x < val (nth (S j) xp f0) -> search_right xp x = S j.
Proof.
  intros T F L [A B]. destruct (search_table xp fp x T F) as [K C]. apply (C j ltac:(lia)) in A.
  destruct (Nat.eq_dec (search_right xp x) (S j)) as [E|E]; [exact E|]. exfalso. assert (Q : (S j < search_right xp x)%nat) by lia. apply (C (S j) L) in Q. lra.
Qed.

(** Refused exactly for empty data or data of different lengths; as many values as queries. *)
Theorem C116_accepts : forall xp fp xs,
  ((exists ys, interp_f xp fp xs = Ok ys) <-> xp <> [] /\ List.length xp = List.length fp) /\
  (forall ys, interp_f xp fp xs = Ok ys -> List.length ys = List.length xs) /\
  (forall e, interp_f xp fp xs = Err e -> e = ValueError).
Proof.
  intros xp fp xs. unfold interp_f.
  assert (D : (xp <> [] /\ List.length xp = List.length fp) <-> (Nat.eqb (List.length xp) 0 || negb (Nat.eqb (List.length xp) (List.length fp)))%bool = false).
  { destruct (Nat.eqb_spec (List.length xp) 0) as [E|E]; cbn [orb].
    - split; [intros [N _]; destruct xp; [congruence|discriminate]|discriminate].
    - destruct (Nat.eqb_spec (List.length xp) (List.length fp)) as [E'|E']; cbn [negb]; split; intros H; try discriminate; try reflexivity; try tauto.
      split; [intros ->; apply E; reflexivity|exact E']. }
  destruct (Nat.eqb (List.length xp) 0 || negb (Nat.eqb (List.length xp) (List.length fp)))%bool.
  - split; [split; [intros [ys H]; discriminate|intros H; apply D in H; discriminate]|]. split; [discriminate|]. intros e H. injection H as <-. reflexivity.
  - split; [split; [intros _; apply D; reflexivity|eauto]|]. split; [intros ys H; injection H as <-; apply map_length|discriminate].
Qed.

(** A given point is reproduced exactly, every query below or above the data gets the first or last ordinate. A query of NaN gives NaN, but the ordinate if there is
    one data point only. *)
Theorem C116_points : forall xp fp x, table xp fp -> fin x = true ->
  (forall j, (j < List.length xp)%nat -> val x = val (nth j xp f0) -> interp1_f xp fp x = nth j fp f0) /\
  (val x < val (nth 0 xp f0) -> interp1_f xp fp x = nth 0 fp f0) /\
  (val (nth (List.length xp - 1) xp f0) < val x -> interp1_f xp fp x = nth (List.length xp - 1) fp f0) /\
  interp1_f xp fp B754_nan = (if Nat.eqb (List.length xp) 1 then nth 0 fp f0 else B754_nan).
Proof.
  intros xp fp x T F. destruct (search_table xp fp x T F) as [K C]. pose proof T as (Ne & L & Fx & Ff & Inc).
  assert (L0 : (0 < List.length xp)%nat) by (destruct xp; [contradiction|cbn; lia]).
  unfold interp1_f at 1 2 3. rewrite (fin_nan x F). split; [|split; [|split; [|reflexivity]]].
  - intros j Hj E. assert (S1 : search_right xp x = S j).
    { assert (A : (j < search_right xp x)%nat) by (apply C; [exact Hj|lra]). destruct (Nat.eq_dec (search_right xp x) (S j)) as [Q|Q]; [exact Q|].
      exfalso. assert (B : val (nth (S j) xp f0) <= val x) by (apply C; lia). specialize (Inc j (S j) ltac:(lia)). lra. }
    rewrite S1. change (Nat.eqb (S j) 0) with false. cbv iota zeta. replace (S j - 1)%nat with j by lia. destruct (Nat.eqb (S j) (List.length xp)); [reflexivity|].
    replace (feq (nth j xp f0) x) with true; [reflexivity|]. symmetry. apply feq_val; [apply nth_fin, Fx|exact F|lra].
  - intros H. assert (Z : search_right xp x = 0%nat) by (destruct (search_right xp x) as [|k] eqn:E; [reflexivity|]; exfalso; assert (val (nth 0 xp f0) <= val x) by (apply C; lia); lra).
    rewrite Z. reflexivity.
  - intros H. assert (Z : search_right xp x = List.length xp).
    { assert (A : (List.length xp - 1 < search_right xp x)%nat) by (apply C; [lia|lra]). lia. }
    rewrite Z, Nat.eqb_refl. destruct (Nat.eqb_spec (List.length xp) 0); [lia|reflexivity].
Qed.

(** ** Inside an interval *)
Definition big : R := bpow radix2 1000.
Lemma small_ok x : Rabs x <= big -> Rabs (rnd x) < top64.
Proof.
  intros H. rewrite <- rnd_abs. apply Rle_lt_trans with big; [|apply bpow_lt; lia].
  assert (D : dbl big) by (apply generic_format_bpow; vm_compute; discriminate).
  destruct (rnd_between (Rabs x) 0 big dbl_0 D) as [_ B]; [split; [apply Rabs_pos|exact H]|exact B].
Qed.

Section Interval.
Variables x x0 x1 y0 y1 : f64.
Hypothesis Fx : fin x = true. Hypothesis F0 : fin x0 = true. Hypothesis F1 : fin x1 = true. Hypothesis G0 : fin y0 = true. Hypothesis G1 : fin y1 = true.
Let B := bpow radix2 100.
Hypothesis Bx0 : Rabs (val x0) <= B. Hypothesis Bx1 : Rabs (val x1) <= B. Hypothesis By0 : Rabs (val y0) <= B. Hypothesis By1 : Rabs (val y1) <= B.
Hypothesis In0 : val x0 <= val x. Hypothesis In1 : val x <= val x1.
Hypothesis Gap : bpow radix2 (-100) <= val x1 - val x0.

Let D := val y1 - val y0. Let X := val x1 - val x0. Let h := val x - val x0. Let q := D / X.
Let eta := bpow radix2 (-1075).
Lemma B_val : B = IZR (2 ^ 100). Proof. reflexivity. Qed.
Lemma X_pos : 0 < X. Proof using Gap. unfold X. pose proof (bpow_gt_0 radix2 (-100)). lra. Qed.
Lemma X_big : X <= 2 * B. Proof using Bx0 Bx1. unfold X. apply Rabs_le_inv in Bx0, Bx1. lra. Qed.
Lemma h_range : 0 <= h <= X. Proof using In0 In1. unfold h, X. lra. Qed.
Lemma D_big : Rabs D <= 2 * B.
Proof using By0 By1. unfold D. apply Rabs_le_inv in By0, By1. apply Rabs_le. lra. Qed.
Lemma q_big : Rabs q <= 2 * B * B.
Proof using By0 By1 Gap.
  unfold q, Rdiv. rewrite Rabs_mult, (Rabs_pos_eq (/ X)) by (left; apply Rinv_0_lt_compat, X_pos). pose proof D_big. pose proof (Rabs_pos D).
  assert (I : / X <= B). { unfold B. replace (bpow radix2 100) with (/ bpow radix2 (-100)) by (rewrite <- bpow_opp; reflexivity). apply Rinv_le; [apply bpow_gt_0|exact Gap]. }
  apply Rmult_le_compat; auto. left. apply Rinv_0_lt_compat, X_pos.
Qed.
Lemma B4 : 1 <= B /\ 100 * B <= big /\ 100 * (B * B) <= big /\ 100 * (B * B * B) <= big.
Proof.
  unfold B, big. rewrite <- !bpow_plus. change (bpow radix2 100) with (IZR (2 ^ 100)).
  assert (H : forall k, (k <= 900)%Z -> 100 * bpow radix2 k <= bpow radix2 1000).
  { intros k Hk. apply Rle_trans with (bpow radix2 7 * bpow radix2 k); [apply Rmult_le_compat_r; [apply bpow_ge_0|cbn; lra]|]. rewrite <- bpow_plus. apply bpow_le. lia. }
  split; [apply (IZR_le 1); lia|]. split; [apply (H 100%Z); lia|]. split; apply H; lia.
Qed.
(** Differences have a relative error. *)
Lemma sub_rel a b : fin a = true -> fin b = true -> Rabs (val a - val b) <= big -> fin (fsub a b) = true /\ exists e, Rabs e <= ueps /\ val (fsub a b) = (val a - val b) * (1 + e).
Proof.
  intros Fa Fb H. destruct (fsub_fin a b Fa Fb (small_ok _ H)) as [F V]. split; [exact F|].
  destruct (rnd_plus' (val a) (- val b) (val_dbl a) (generic_format_opp _ _ _ (val_dbl b))) as (e & He & E). exists e. split; [exact He|].
  rewrite V. unfold Rminus at 1. rewrite E. unfold Rminus. reflexivity.
Qed.

Let dD := fsub y1 y0. Let dX := fsub x1 x0. Let s := fdiv dD dX. Let dh := fsub x x0. Let m := fmul s dh. Let r := fadd m y0.
Let Q := val dD / val dX.
Lemma Rabs_near a b c : Rabs (a - b) <= c -> Rabs a <= Rabs b + c.
Proof. intros H. replace a with (b + (a - b)) by ring. eapply Rle_trans; [apply Rabs_triang|]. lra. Qed.
Lemma u6 : 0 < ueps <= / 1000000. Proof. split; [apply ueps_pos|apply u_tiny]. Qed.
Lemma dD_ok : fin dD = true /\ exists e, Rabs e <= ueps /\ val dD = D * (1 + e).
Proof using G0 G1 By0 By1. apply sub_rel; auto. fold D. pose proof D_big. pose proof B4. lra. Qed.
Lemma dX_ok : fin dX = true /\ exists e, Rabs e <= ueps /\ val dX = X * (1 + e).
Proof using F0 F1 Bx0 Bx1 Gap. apply sub_rel; auto. fold X. rewrite Rabs_pos_eq by (left; apply X_pos). pose proof X_big. pose proof B4. lra. Qed.
Lemma dh_ok : fin dh = true /\ exists e, Rabs e <= ueps /\ val dh = h * (1 + e).
Proof using Fx F0 Bx0 Bx1 In0 In1. apply sub_rel; auto. fold h. pose proof h_range. rewrite Rabs_pos_eq by lra. pose proof X_big. pose proof B4. lra. Qed.
Lemma dX_pos : 0 < val dX.
Proof using F0 F1 Bx0 Bx1 Gap. destruct dX_ok as (_ & e & He & ->). pose proof u6. apply Rabs_le_inv in He. pose proof X_pos. apply Rmult_lt_0_compat; lra. Qed.
Lemma Q_near : Rabs (Q - q) <= 2001 / 1000 * ueps * Rabs q.
Proof using F0 F1 G0 G1 Bx0 Bx1 By0 By1 Gap.
  destruct dD_ok as (_ & e1 & H1 & E1). destruct dX_ok as (_ & e2 & H2 & E2). pose proof u6 as U. unfold Q. rewrite E1, E2. apply Rabs_le_inv in H1, H2. pose proof X_pos as XP.
  replace (D * (1 + e1) / (X * (1 + e2)) - q) with (q * ((e1 - e2) / (1 + e2))) by (unfold q; field; lra).
  rewrite Rabs_mult, Rmult_comm. apply Rmult_le_compat_r; [apply Rabs_pos|].
  unfold Rdiv. rewrite Rabs_mult, (Rabs_pos_eq (/ (1 + e2))) by (left; apply Rinv_0_lt_compat; lra).
  apply Rmult_le_reg_r with (1 + e2); [lra|]. rewrite Rmult_assoc, Rinv_l, Rmult_1_r by lra. apply Rle_trans with (2 * ueps); [apply Rabs_le; lra|]. nra.
Qed.
Lemma Q_big : Rabs Q <= 3 * (B * B).
Proof using F0 F1 G0 G1 Bx0 Bx1 By0 By1 Gap.
  pose proof (Rabs_near _ _ _ Q_near) as H. pose proof q_big as Hq. pose proof u6. pose proof (Rabs_pos q). pose proof B4 as (HB & _). assert (0 <= B * B) by nra. nra.
Qed.
Lemma s_ok : fin s = true /\ val s = rnd Q.
Proof using F0 F1 G0 G1 Bx0 Bx1 By0 By1 Gap. apply fdiv_fin; [apply dD_ok|pose proof dX_pos; lra|]. fold Q. apply small_ok. pose proof Q_big. pose proof B4 as (HB & _ & H2 & _). assert (0 <= B * B) by nra. lra. Qed.
Lemma s_near : Rabs (val s - q) <= 31 / 10 * ueps * Rabs q + eta.
Proof using F0 F1 G0 G1 Bx0 Bx1 By0 By1 Gap.
  destruct s_ok as [_ ->]. pose proof (rnd_err Q) as H. pose proof Q_near as N. pose proof (Rabs_near _ _ _ N) as QB. pose proof u6 as U. pose proof (Rabs_pos q) as Pq. fold eta in H.
  replace (rnd Q - q) with ((rnd Q - Q) + (Q - q)) by ring. eapply Rle_trans; [apply Rabs_triang|].
  assert (M : ueps * Rabs Q <= 1001 / 1000 * ueps * Rabs q) by (assert (Rabs Q <= 1001 / 1000 * Rabs q) by nra; nra). nra.
Qed.
Lemma eta_pos : 0 < eta <= 1. Proof. unfold eta. split; [apply bpow_gt_0|]. change 1 with (bpow radix2 0). apply bpow_le. lia. Qed.
Lemma qh_D : Rabs q * h <= Rabs D.
Proof using Gap In0 In1.
  pose proof h_range as H. pose proof X_pos as XP. replace (Rabs D) with (Rabs q * X); [apply Rmult_le_compat_l; [apply Rabs_pos|lra]|].
  unfold q, Rdiv. rewrite Rabs_mult, (Rabs_pos_eq (/ X)) by (left; apply Rinv_0_lt_compat, XP). field. lra.
Qed.
Lemma P_near : Rabs (val s * val dh - q * h) <= 42 / 10 * ueps * (Rabs q * h) + 1001 / 1000 * eta * h.
Proof using Fx F0 F1 G0 G1 Bx0 Bx1 By0 By1 In0 In1 Gap.
  destruct dh_ok as (_ & e & He & ->). pose proof s_near as N. pose proof u6 as U. pose proof h_range as H. pose proof (Rabs_pos q) as Pq. pose proof eta_pos as EP.
  replace (val s * (h * (1 + e)) - q * h) with ((val s - q) * (h * (1 + e)) + (q * h) * e) by ring.
  eapply Rle_trans; [apply Rabs_triang|]. rewrite !Rabs_mult, (Rabs_pos_eq h), (Rabs_pos_eq (1 + e)) by (apply Rabs_le_inv in He; lra).
  assert (H1 : h * (1 + e) <= 1001 / 1000 * h) by (apply Rabs_le_inv in He; nra). assert (H0 : 0 <= h * (1 + e)) by (apply Rabs_le_inv in He; nra).
  assert (K1 : Rabs (val s - q) * (h * (1 + e)) <= (31 / 10 * ueps * Rabs q + eta) * (1001 / 1000 * h)) by (apply Rmult_le_compat; try assumption; apply Rabs_pos).
  assert (K2 : Rabs q * h * Rabs e <= Rabs q * h * ueps) by (apply Rmult_le_compat_l; [nra|exact He]).
  assert (K3 : 0 <= Rabs q * h * ueps) by (apply Rmult_le_pos; nra). nra.
Qed.
Lemma m_ok : fin m = true /\ val m = rnd (val s * val dh) /\ Rabs (val m - q * h) <= 53 / 10 * ueps * Rabs D + 4 * B * eta.
Proof using Fx F0 F1 G0 G1 Bx0 Bx1 By0 By1 In0 In1 Gap.
  pose proof P_near as N. pose proof (Rabs_near _ _ _ N) as PB. rewrite (Rabs_mult q h), (Rabs_pos_eq h) in PB by (pose proof h_range; lra).
  pose proof u6 as U. pose proof h_range as H. pose proof (Rabs_pos q) as Pq. pose proof eta_pos as EP. pose proof qh_D as QD. pose proof X_big as XB. pose proof D_big as DB. pose proof B4 as (B1 & B2 & _).
  assert (QH0 : 0 <= Rabs q * h) by nra. assert (EH : eta * h <= eta * (2 * B)) by nra. assert (EH0 : 0 <= eta * h) by nra.
  assert (PB2 : Rabs (val s * val dh) <= 1001 / 1000 * (Rabs q * h) + 1001 / 1000 * (eta * h)) by nra.
  assert (PB3 : Rabs (val s * val dh) <= big) by nra.
  destruct (fmul_fin s dh (proj1 s_ok) (proj1 dh_ok) (small_ok _ PB3)) as [F V]. split; [exact F|]. split; [exact V|]. fold m in V. rewrite V.
  pose proof (rnd_err (val s * val dh)) as RE. fold eta in RE.
  replace (rnd (val s * val dh) - q * h) with ((rnd (val s * val dh) - val s * val dh) + (val s * val dh - q * h)) by ring. eapply Rle_trans; [apply Rabs_triang|].
  assert (M1 : ueps * Rabs (val s * val dh) <= 1001 / 1000 * (ueps * (Rabs q * h)) + 1001 / 1000 * (eta * h) * ueps) by nra.
  assert (M2 : ueps * (Rabs q * h) <= ueps * Rabs D) by nra. assert (M3 : (eta * h) * ueps <= eta * h * / 1000) by nra. assert (M0 : 0 <= ueps * (Rabs q * h)) by nra.
  assert (M4 : eta <= eta * B) by nra. nra.
Qed.
Lemma r_ok : fin r = true /\ val r = rnd (val m + val y0) /\ Rabs (val r - (val y0 + q * h)) <= ueps * (Rabs (val y0 + q * h) + 6 * Rabs D) + bpow radix2 (-900).
Proof using Fx F0 F1 G0 G1 Bx0 Bx1 By0 By1 In0 In1 Gap.
  destruct m_ok as (Fm & Vm & N). pose proof u6 as U. pose proof D_big as DB. pose proof B4 as (B1 & B2 & _). pose proof eta_pos as EP. pose proof (Rabs_pos D) as D0.
  set (E := val y0 + q * h).
  assert (N2 : Rabs ((val m + val y0) - E) <= 53 / 10 * ueps * Rabs D + 4 * B * eta) by (unfold E; replace (val m + val y0 - (val y0 + q * h)) with (val m - q * h) by ring; exact N).
  pose proof (Rabs_near _ _ _ N2) as SB.
  assert (EB : Rabs E <= 3 * B).
  { unfold E. eapply Rle_trans; [apply Rabs_triang|]. rewrite Rabs_mult, (Rabs_pos_eq h) by (pose proof h_range; lra). pose proof qh_D. lra. }
  assert (EtaB : 4 * B * eta <= 4 * B) by nra. assert (UD : 53 / 10 * ueps * Rabs D <= B) by nra.
  destruct (fadd_fin m y0 Fm G0) as [F V]; [apply small_ok; lra|]. split; [exact F|]. split; [exact V|]. fold r in V. rewrite V.
  destruct (rnd_plus' (val m) (val y0) (val_dbl m) (val_dbl y0)) as (e & He & Ee). rewrite Ee.
  replace ((val m + val y0) * (1 + e) - E) with ((val m + val y0 - E) + (val m + val y0) * e) by ring. eapply Rle_trans; [apply Rabs_triang|]. rewrite Rabs_mult.
  assert (K : Rabs (val m + val y0) * Rabs e <= Rabs (val m + val y0) * ueps) by (apply Rmult_le_compat_l; [apply Rabs_pos|exact He]).
  assert (T : 8 * B * eta <= bpow radix2 (-900)).
  { unfold B, eta. rewrite Rmult_assoc, <- bpow_plus. change 8 with (bpow radix2 3). rewrite <- bpow_plus. apply bpow_le. lia. }
  assert (BE : 0 <= B * eta) by nra. assert (K2 : Rabs (val m + val y0) * ueps <= (Rabs E + (53 / 10 * ueps * Rabs D + 4 * B * eta)) * ueps) by (apply Rmult_le_compat_r; lra).
  assert (K5 : 0 <= ueps * Rabs D) by (apply Rmult_le_pos; lra).
  assert (K3 : (53 / 10 * ueps * Rabs D) * ueps <= / 10 * (ueps * Rabs D)).
  { replace (53 / 10 * ueps * Rabs D * ueps) with ((53 / 10 * ueps) * (ueps * Rabs D)) by ring. apply Rmult_le_compat_r; lra. }
  assert (K4 : (4 * B * eta) * ueps <= B * eta).
  { replace (4 * B * eta * ueps) with ((4 * ueps) * (B * eta)) by ring. rewrite <- (Rmult_1_l (B * eta)) at 2. apply Rmult_le_compat_r; lra. }
  lra.
Qed.
Lemma line_ok : line_f x x0 x1 y0 y1 = r.
Proof using Fx F0 F1 G0 G1 Bx0 Bx1 By0 By1 In0 In1 Gap. unfold line_f. fold dD dX s dh m r. rewrite (fin_nan r (proj1 r_ok)). reflexivity. Qed.
End Interval.

(** Numbers of ordinary size, abscissae not too close. *)
Definition moderate (xp fp : list f64) : Prop :=
  Forall (fun v => Rabs (val v) <= bpow radix2 100) xp /\ Forall (fun v => Rabs (val v) <= bpow radix2 100) fp /\
  forall j, (S j < List.length xp)%nat -> bpow radix2 (-100) <= val (nth (S j) xp f0) - val (nth j xp f0).
Lemma nth_moderate l i : Forall (fun v => Rabs (val v) <= bpow radix2 100) l -> Rabs (val (nth i l f0)) <= bpow radix2 100.
Proof.
  intros H. destruct (Nat.lt_ge_cases i (List.length l)) as [L|L]; [rewrite Forall_forall in H; apply H, nth_In, L|]. rewrite nth_overflow by exact L.
  rewrite f0_val, Rabs_R0. apply bpow_ge_0.
Qed.
(** The query lies in interval [j]. *)
Definition inside (xp : list f64) (j : nat) (x : f64) : Prop :=
  fin x = true /\ (S j < List.length xp)%nat /\ val (nth j xp f0) <= val x < val (nth (S j) xp f0).
(** The point of the straight line through two neighbouring data points. *)
Definition straight (xp fp : list f64) (j : nat) (x : R) : R :=
  val (nth j fp f0) + (val (nth (S j) fp f0) - val (nth j fp f0)) / (val (nth (S j) xp f0) - val (nth j xp f0)) * (x - val (nth j xp f0)).

Lemma interp_value xp fp j x : table xp fp -> moderate xp fp -> inside xp j x ->
  exists s, (val (nth j fp f0) <= val (nth (S j) fp f0) -> 0 <= s) /\ (val (nth (S j) fp f0) <= val (nth j fp f0) -> s <= 0) /\
    s = rnd (val (fsub (nth (S j) fp f0) (nth j fp f0)) / val (fsub (nth (S j) xp f0) (nth j xp f0))) /\
    fin (interp1_f xp fp x) = true /\ val (interp1_f xp fp x) = rnd (rnd (s * rnd (val x - val (nth j xp f0))) + val (nth j fp f0)) /\
    Rabs (val (interp1_f xp fp x) - straight xp fp j (val x)) <=
      ueps * (Rabs (straight xp fp j (val x)) + 6 * Rabs (val (nth (S j) fp f0) - val (nth j fp f0))) + bpow radix2 (-900).
Proof.
  intros T (Mx & My & Gp) (Fx & L & In0 & In1). pose proof T as (Ne & Len & FX & FF & Inc).
  set (x0 := nth j xp f0) in *. set (x1 := nth (S j) xp f0) in *. set (y0 := nth j fp f0). set (y1 := nth (S j) fp f0).
  assert (F0 : fin x0 = true) by apply nth_fin, FX. assert (F1 : fin x1 = true) by apply nth_fin, FX. assert (G0 : fin y0 = true) by apply nth_fin, FF. assert (G1 : fin y1 = true) by apply nth_fin, FF.
  assert (Bx0 : Rabs (val x0) <= bpow radix2 100) by apply nth_moderate, Mx. assert (Bx1 : Rabs (val x1) <= bpow radix2 100) by apply nth_moderate, Mx.
  assert (By0 : Rabs (val y0) <= bpow radix2 100) by apply nth_moderate, My. assert (By1 : Rabs (val y1) <= bpow radix2 100) by apply nth_moderate, My.
  pose proof (Gp j L) as Gap. fold x0 x1 in Gap. assert (In1' : val x <= val x1) by lra.
  destruct (r_ok x x0 x1 y0 y1 Fx F0 F1 G0 G1 Bx0 Bx1 By0 By1 In0 In1' Gap) as (Fr & Vr & Er).
  destruct (m_ok x x0 x1 y0 y1 Fx F0 F1 G0 G1 Bx0 Bx1 By0 By1 In0 In1' Gap) as (_ & Vm & _).
  destruct (s_ok x0 x1 y0 y1 F0 F1 G0 G1 Bx0 Bx1 By0 By1 Gap) as [Fs Vs].
  pose proof (dX_pos x0 x1 F0 F1 Bx0 Bx1 Gap) as DX. destruct (dD_ok y0 y1 G0 G1 By0 By1) as (FD & e & He & VD).
  destruct (dh_ok x x0 x1 Fx F0 Bx0 Bx1 In0 In1') as (Fh & _).
  assert (Sg : (val y0 <= val y1 -> 0 <= val (fsub y1 y0)) /\ (val y1 <= val y0 -> val (fsub y1 y0) <= 0)).
  { rewrite VD. pose proof u6. apply Rabs_le_inv in He. split; intros; [apply Rmult_le_pos; lra|]. apply Ropp_le_cancel. rewrite Ropp_0, Ropp_mult_distr_l. apply Rmult_le_pos; lra. }
  exists (rnd (val (fsub y1 y0) / val (fsub x1 x0))).
  split; [intros H; apply rnd_nonneg; apply Rmult_le_pos; [apply Sg, H|left; apply Rinv_0_lt_compat, DX]|].
  split. { intros H. rewrite <- rnd_0. apply rnd_mono. apply Ropp_le_cancel. rewrite Ropp_0. unfold Rdiv. rewrite Ropp_mult_distr_l. apply Rmult_le_pos; [pose proof (proj2 Sg H); lra|left; apply Rinv_0_lt_compat, DX]. }
  split; [reflexivity|].
  assert (V : val (fadd (fmul (fdiv (fsub y1 y0) (fsub x1 x0)) (fsub x x0)) y0) = rnd (rnd (rnd (val (fsub y1 y0) / val (fsub x1 x0)) * rnd (val x - val x0)) + val y0)).
  { rewrite Vr, Vm, Vs. rewrite (fsub_val x x0 Fx F0 Fh). reflexivity. }
  assert (E1 : interp1_f xp fp x = if feq x0 x then y0 else fadd (fmul (fdiv (fsub y1 y0) (fsub x1 x0)) (fsub x x0)) y0).
  { unfold interp1_f. rewrite (fin_nan x Fx), (search_interval xp fp x j T Fx L (conj In0 In1)). cbv zeta. change (Nat.eqb (S j) 0) with false. cbv iota.
    destruct (Nat.eqb_spec (S j) (List.length xp)); [lia|]. replace (S j - 1)%nat with j by lia. fold x0 x1 y0 y1.
    rewrite (line_ok x x0 x1 y0 y1 Fx F0 F1 G0 G1 Bx0 Bx1 By0 By1 In0 In1' Gap). reflexivity. }
  rewrite E1. destruct (feq x0 x) eqn:Q.
  - apply feq_val in Q; auto. split; [exact G0|]. unfold straight. fold x0 x1 y0 y1. rewrite <- Q. replace (val x0 - val x0) with 0 by ring. rewrite rnd_0, !Rmult_0_r, rnd_0, Rplus_0_l, Rplus_0_r.
    split; [symmetry; apply rnd_id, val_dbl|]. replace (val y0 - val y0) with 0 by ring. rewrite Rabs_R0. pose proof u6. pose proof (Rabs_pos (val y0)). pose proof (Rabs_pos (val y1 - val y0)). pose proof (bpow_ge_0 radix2 (-900)).
    apply Rplus_le_le_0_compat; [apply Rmult_le_pos; lra|lra].
  - split; [exact Fr|]. split; [exact V|]. unfold straight. fold x0 x1 y0 y1. exact Er.
Qed.

(** The value is that of the straight line up to seven roundings. *)
Theorem C116_accuracy : forall xp fp j x, table xp fp -> moderate xp fp -> inside xp j x ->
  fin (interp1_f xp fp x) = true /\
  Rabs (val (interp1_f xp fp x) - straight xp fp j (val x)) <=
    ueps * (Rabs (straight xp fp j (val x)) + 6 * Rabs (val (nth (S j) fp f0) - val (nth j fp f0))) + bpow radix2 (-900).
Proof. intros xp fp j x T M I. destruct (interp_value xp fp j x T M I) as (s & _ & _ & _ & F & _ & E). auto. Qed.

(** Inside an interval the values are monotone, and never on the wrong side of the left ordinate. *)
Theorem C116_monotone : forall xp fp j x x', table xp fp -> moderate xp fp -> inside xp j x -> inside xp j x' -> val x <= val x' ->
  (val (nth j fp f0) <= val (nth (S j) fp f0) -> val (nth j fp f0) <= val (interp1_f xp fp x) <= val (interp1_f xp fp x')) /\
  (val (nth (S j) fp f0) <= val (nth j fp f0) -> val (interp1_f xp fp x') <= val (interp1_f xp fp x) <= val (nth j fp f0)).
Proof.
  intros xp fp j x x' T M I I' LE. destruct (interp_value xp fp j x T M I) as (s & P & N & Es & _ & V & _). destruct (interp_value xp fp j x' T M I') as (s' & _ & _ & Es' & _ & V' & _).
  rewrite <- Es in Es'. subst s'. rewrite V, V'. destruct I as (_ & _ & In0 & _). set (y := val (nth j fp f0)) in *. assert (Y : rnd y = y) by apply rnd_id, val_dbl.
  set (a := rnd (val x - val (nth j xp f0))). set (b := rnd (val x' - val (nth j xp f0))). assert (A0 : 0 <= a) by (apply rnd_nonneg; lra). assert (AB : a <= b) by (apply rnd_mono; lra). split; intros H.
  - specialize (P H). split.
    + rewrite <- Y at 1. apply rnd_mono. pose proof (rnd_nonneg (s * a) (Rmult_le_pos _ _ P A0)). lra.
    + apply rnd_mono, Rplus_le_compat_r, rnd_mono. apply Rmult_le_compat_l; assumption.
  - specialize (N H). split.
    + apply rnd_mono, Rplus_le_compat_r, rnd_mono. nra.
    + rewrite <- Y at 2. apply rnd_mono. assert (rnd (s * a) <= 0) by (rewrite <- rnd_0; apply rnd_mono; nra). lra.
Qed.

(** Between two equal ordinates nothing is lost. *)
Theorem C116_constant : forall xp fp j x, table xp fp -> moderate xp fp -> inside xp j x -> val (nth j fp f0) = val (nth (S j) fp f0) -> val (interp1_f xp fp x) = val (nth j fp f0).
Proof. intros xp fp j x T M I E. destruct (C116_monotone xp fp j x x T M I I (Rle_refl _)) as [A B]. specialize (A ltac:(lra)). specialize (B ltac:(lra)). lra. Qed.

(** Data that never rise (such as G/Gmax) are never exceeded, data that never fall (such as damping) never undercut: all values stay on the
    right side of the first ordinate, wherever the query lies. *)
Lemma steps_le (l : list f64) : (forall j, (S j < List.length l)%nat -> val (nth j l f0) <= val (nth (S j) l f0)) -> forall i, (i < List.length l)%nat -> val (nth 0 l f0) <= val (nth i l f0).
Proof. intros H. induction i as [|i IH]; intros L; [lra|]. specialize (IH ltac:(lia)). specialize (H i L). lra. Qed.
Lemma steps_ge (l : list f64) : (forall j, (S j < List.length l)%nat -> val (nth (S j) l f0) <= val (nth j l f0)) -> forall i, (i < List.length l)%nat -> val (nth i l f0) <= val (nth 0 l f0).
Proof. intros H. induction i as [|i IH]; intros L; [lra|]. specialize (IH ltac:(lia)). specialize (H i L). lra. Qed.

Lemma where_is xp fp x : table xp fp -> fin x = true ->
  (exists j, (j < List.length xp)%nat /\ interp1_f xp fp x = nth j fp f0) \/ exists j, inside xp j x.
Proof.
  intros T F. destruct (search_table xp fp x T F) as [K C]. pose proof T as (Ne & L & _). assert (L0 : (0 < List.length xp)%nat) by (destruct xp; [contradiction|cbn; lia]).
  destruct (search_right xp x) as [|k] eqn:E.
  - left. exists 0%nat. split; [exact L0|]. unfold interp1_f. rewrite (fin_nan x F), E. reflexivity.
  - destruct (Nat.eq_dec (S k) (List.length xp)) as [Q|Q].
    + left. exists k. split; [lia|]. unfold interp1_f. rewrite (fin_nan x F), E. cbv zeta. rewrite Q, Nat.eqb_refl, <- Q. change (Nat.eqb (S k) 0) with false. cbv iota. f_equal. lia.
    + right. exists k. split; [exact F|]. split; [lia|]. split; [apply C; lia|]. apply Rnot_le_lt. intros H. apply C in H; lia.
Qed.
Theorem C116_one_sided : forall xp fp x, table xp fp -> moderate xp fp -> fin x = true ->
  ((forall j, (S j < List.length fp)%nat -> val (nth (S j) fp f0) <= val (nth j fp f0)) -> val (interp1_f xp fp x) <= val (nth 0 fp f0)) /\
  ((forall j, (S j < List.length fp)%nat -> val (nth j fp f0) <= val (nth (S j) fp f0)) -> val (nth 0 fp f0) <= val (interp1_f xp fp x)).
Proof.
  intros xp fp x T M F. pose proof T as (_ & L & _). destruct (where_is xp fp x T F) as [(j & Hj & ->)|(j & I)].
  - split; intros H; [apply (steps_ge fp H); lia|apply (steps_le fp H); lia].
  - destruct (C116_monotone xp fp j x x T M I I (Rle_refl _)) as [A B]. assert (Lj : (S j < List.length fp)%nat) by (destruct I as (_ & I & _); lia). split; intros H.
    + specialize (B (H j Lj)). pose proof (steps_ge fp H j ltac:(lia)). lra.
    + specialize (A (H j Lj)). pose proof (steps_le fp H j ltac:(lia)). lra.
Qed.

(** The right ordinate can be overshot: between (0, 0.3) and (0.2, 0.9) there is a value above 0.9. *)
Definition ex_xp : list f64 := [f0; lit 3602879701896397 (-54)].
Definition ex_fp : list f64 := [lit 5404319552844595 (-54); lit 8106479329266893 (-53)].
Definition ex_x : f64 := lit 7205759403792793 (-55).
Lemma ex_ok : table ex_xp ex_fp /\ moderate ex_xp ex_fp /\ inside ex_xp 0 ex_x.
Proof.
  destruct (lit_ok 3602879701896397 (-54) ltac:(cbn; lia) ltac:(lia)) as [A1 A2]. destruct (lit_ok 5404319552844595 (-54) ltac:(cbn; lia) ltac:(lia)) as [B1 B2].
  destruct (lit_ok 8106479329266893 (-53) ltac:(cbn; lia) ltac:(lia)) as [C1 C2]. destruct (lit_ok 7205759403792793 (-55) ltac:(cbn; lia) ltac:(lia)) as [D1 D2].
  change (bpow radix2 (-54)) with (/ 18014398509481984) in *. change (bpow radix2 (-53)) with (/ 9007199254740992) in *. change (bpow radix2 (-55)) with (/ 36028797018963968) in *.
  assert (P : 1 <= bpow radix2 100) by (change 1 with (bpow radix2 0); apply bpow_le; lia).
  assert (P' : bpow radix2 (-100) <= / 16) by (change (/ 16) with (bpow radix2 (-4)); apply bpow_le; lia).
  unfold ex_xp, ex_fp, ex_x. split; [|split].
  - split; [discriminate|]. split; [reflexivity|]. split; [constructor; [reflexivity|constructor; [exact A1|constructor]]|]. split; [constructor; [exact B1|constructor; [exact C1|constructor]]|].
    intros [|i] [|[|j]] H; cbn [List.length] in H; try lia. cbn [nth]. rewrite f0_val, A2. lra.
  - split; [|split].
    + constructor; [rewrite f0_val, Rabs_R0; lra|constructor; [rewrite A2, Rabs_pos_eq; lra|constructor]].
    + constructor; [rewrite B2, Rabs_pos_eq; lra|constructor; [rewrite C2, Rabs_pos_eq; lra|constructor]].
    + intros [|j] H; cbn [List.length] in H; try lia. cbn [nth]. rewrite f0_val, A2. lra.
  - split; [exact D1|]. split; [cbn; lia|]. cbn [nth]. rewrite f0_val, A2, D2. lra.
Qed.
Theorem C116_between_refuted : exists xp fp x, table xp fp /\ moderate xp fp /\ inside xp 0 x /\
  Forall (fun y => flt y (interp1_f xp fp x) = true) fp.
Proof.
  exists ex_xp, ex_fp, ex_x. destruct ex_ok as (T & M & I). split; [exact T|]. split; [exact M|]. split; [exact I|]. repeat constructor; vm_compute; reflexivity.
Qed.

(** Interpolating over the range of the data reproduces the first and the last ordinate exactly. *)
Theorem C116_endpoints : forall xp fp n, table xp fp -> moderate xp fp -> (2 <= List.length xp)%nat -> (2 <= n <= 2 ^ 48)%Z ->
  exists xs ys, interpolate_f (nth 0 xp f0) (nth (List.length xp - 1) xp f0) n xp fp = Ok (xs, ys) /\ List.length xs = Z.to_nat n /\ List.length ys = Z.to_nat n /\
    val (nth 0 ys f0) = val (nth 0 fp f0) /\ nth (Z.to_nat (n - 1)) ys f0 = nth (List.length fp - 1) fp f0.
Proof.
  intros xp fp n T M L2 Hn. pose proof T as (Ne & Len & FX & FF & Inc). pose proof M as (Mx & My & Gp). set (a := nth 0 xp f0). set (b := nth (List.length xp - 1) xp f0).
  assert (Fa : fin a = true) by apply nth_fin, FX. assert (Fb : fin b = true) by apply nth_fin, FX.
  assert (Ba : Rabs (val a) <= bpow radix2 100) by apply nth_moderate, Mx. assert (Bb : Rabs (val b) <= bpow radix2 100) by apply nth_moderate, Mx.
  assert (Gab : bpow radix2 (-100) <= val b - val a).
  { pose proof (Gp 0%nat ltac:(lia)) as G. fold a in G. destruct (Nat.eq_dec (List.length xp - 1) 1) as [E|E]; [unfold b; rewrite E; exact G|].
    specialize (Inc 1%nat (List.length xp - 1)%nat ltac:(lia)). fold b in Inc. lra. }
  pose proof B4 as (B1 & B2 & _). pose proof (bpow_gt_0 radix2 (-100)) as P0.
  destruct (sub_rel b a Fb Fa) as (Fd & _); [apply Rabs_le_inv in Ba, Bb; apply Rabs_le; lra|]. pose proof (fsub_val b a Fb Fa Fd) as Vd.
  assert (Dd : bpow radix2 (-100) <= val (fsub b a) <= bpow radix2 102).
  { rewrite Vd. apply rnd_between; [apply generic_format_bpow; vm_compute; discriminate|apply generic_format_bpow; vm_compute; discriminate|].
    split; [exact Gab|]. apply Rabs_le_inv in Ba, Bb. replace (bpow radix2 102) with (4 * bpow radix2 100) by (change 4 with (bpow radix2 2); rewrite <- bpow_plus; reflexivity). lra. }
  destruct (fofZ_ok (n - 1) ltac:(lia)) as [Fn Vn]. assert (N1 : 1 <= IZR (n - 1)) by (apply (IZR_le 1); lia). assert (N2 : IZR (n - 1) <= bpow radix2 48) by (change (bpow radix2 48) with (IZR (2 ^ 48)); apply IZR_le; lia).
  assert (Sd : bpow radix2 (-148) <= val (fsub b a) / val (fofZ (n - 1)) <= bpow radix2 102).
  { rewrite Vn. unfold Rdiv. split.
    - replace (bpow radix2 (-148)) with (bpow radix2 (-100) * / bpow radix2 48) by (rewrite <- bpow_opp, <- bpow_plus; reflexivity).
      apply Rmult_le_compat; [lra|left; apply Rinv_0_lt_compat, bpow_gt_0|lra|apply Rinv_le; lra].
    - rewrite <- (Rmult_1_r (bpow radix2 102)). apply Rmult_le_compat; [lra|left; apply Rinv_0_lt_compat; lra|lra|]. rewrite <- Rinv_1. apply Rinv_le; lra. }
  assert (D148 : dbl (bpow radix2 (-148))) by (apply generic_format_bpow; vm_compute; discriminate). assert (D102 : dbl (bpow radix2 102)) by (apply generic_format_bpow; vm_compute; discriminate).
  destruct (rnd_between _ _ _ D148 D102 Sd) as [S1 S2]. pose proof (bpow_gt_0 radix2 (-148)) as P1.
  assert (ST : Rabs (rnd (val (fsub b a) / val (fofZ (n - 1)))) < top64) by (rewrite Rabs_pos_eq by lra; eapply Rle_lt_trans; [exact S2|apply bpow_lt; lia]).
  destruct (fdiv_fin (fsub b a) (fofZ (n - 1)) Fd ltac:(lra) ST) as [Fs Vs].
  destruct (linspace_entries a b n ltac:(lia) Fs ltac:(rewrite Vs; lra)) as (xs & El & Lx & Xl & Xe).
  assert (Ei : interp_f xp fp xs = Ok (map (interp1_f xp fp) xs)).
  { unfold interp_f. destruct (Nat.eqb_spec (List.length xp) 0); [lia|]. rewrite <- Len, Nat.eqb_refl. reflexivity. }
  exists xs, (map (interp1_f xp fp) xs). unfold interpolate_f. rewrite El. cbn [bind]. rewrite Ei. split; [reflexivity|]. split; [exact Lx|]. split; [rewrite map_length; exact Lx|].
  assert (NM : forall k, (k < Z.to_nat n)%nat -> nth k (map (interp1_f xp fp) xs) f0 = interp1_f xp fp (nth k xs f0)).
  { intros k Hk. rewrite (nth_indep _ f0 (interp1_f xp fp f0)) by (rewrite map_length; lia). apply map_nth. }
  rewrite !NM by lia. split.
  - rewrite Xe by lia. cbn [Z.of_nat]. destruct (fmul_zero (fdiv (fsub b a) (fofZ (n - 1))) Fs) as [Fz Vz]. set (z := fmul _ _) in *.
    assert (Va : fin (fadd z a) = true /\ val (fadd z a) = val a).
    { destruct (fadd_fin z a Fz Fa) as [F V]; [rewrite Vz, Rplus_0_l, rnd_id by apply val_dbl; apply val_lt_top|]. split; [exact F|]. rewrite V, Vz, Rplus_0_l. apply rnd_id, val_dbl. }
    destruct (C116_points xp fp (fadd z a) T (proj1 Va)) as (P & _). rewrite (P 0%nat ltac:(lia)); [reflexivity|]. apply Va.
  - rewrite Xl. destruct (C116_points xp fp b T Fb) as (P & _). rewrite <- Len. apply (P (List.length xp - 1)%nat); [lia|reflexivity].
Qed.

Example C116_instance : table ex_xp ex_fp /\ moderate ex_xp ex_fp /\ inside ex_xp 0 ex_x /\ (2 <= List.length ex_xp)%nat /\
  feq (interp1_f ex_xp ex_fp (lit 3602879701896397 (-55))) (lit 5404319552844596 (-53)) = true.
Proof. destruct ex_ok as (T & M & I). split; [exact T|]. split; [exact M|]. split; [exact I|]. split; [cbn; lia|]. vm_compute. reflexivity. Qed.
