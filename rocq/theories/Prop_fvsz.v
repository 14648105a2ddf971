(** C108: the average velocity of the top Z metres in double precision. *)
From Coq Require Import Reals List Bool ZArith Lia Lra Psatz.
From Flocq Require Import Core IEEE754.BinarySingleNaN Plus_error Relative Sterbenz.
From Verif Require Import Base M_float P_float Prop_fdepth Prop_fcount M_fquery Prop_fquery.
Import ListNotations.
Open Scope R_scope.

(** ** Specification *)
(** Exact travel time through the parts of the layers above depth [Z], the first layer starting
    at depth [D]; total thickness; and, for a profile that ends above [Z], with the last
    velocity going on. *)
Fixpoint travel (D Z : R) (p : list frow) : R :=
  match p with
  | [] => 0
  | (h, v) :: r => (Rmin (D + val h) Z - Rmin D Z) / val v + travel (D + val h) Z r
  end.
Definition depth_of (p : list frow) : R := total (map fst p).
Definition exact_VsZ (p : list frow) (Z : R) (option_ : nat) : R :=
  match option_ with
  | 1%nat => Z / (travel 0 Z p + (Z - Rmin (depth_of p) Z) / val (last (map snd p) f0))
  | _ => Rmin (depth_of p) Z / travel 0 Z p
  end.
(** Velocities between [lo] and [hi]; no extreme numbers. *)
Definition rows_ok (lo hi : R) (p : list frow) : Prop :=
  Forall (fun r => thickness (fst r) /\ fin (snd r) = true /\ lo <= val (snd r) <= hi) p.
Definition usual (lo hi : R) (p : list frow) (Z : f64) : Prop :=
  p <> [] /\ rows_ok lo hi p /\ bpow radix2 (-300) <= lo <= hi /\ hi <= bpow radix2 300 /\ (Z.of_nat (length p) <= 2 ^ 32)%Z /\
  fin Z = true /\ bpow radix2 (-300) <= val Z /\ depth_of p + val Z <= bpow radix2 300.

Lemma rnd_err x : Rabs (rnd x - x) <= ueps * Rabs x + bpow radix2 (-1075).
Proof.
  destruct (error_N_FLT radix2 (-1074) 53 ltac:(lia) (fun z => negb (Z.even z)) x) as (e & n & He & Hn & _ & E).
  change (rnd x = x * (1 + e) + n) in E. rewrite E. replace (x * (1 + e) + n - x) with (e * x + n) by ring. eapply Rle_trans; [apply Rabs_triang|]. rewrite Rabs_mult.
  apply Rplus_le_compat.
  - apply Rmult_le_compat_r; [apply Rabs_pos|]. rewrite <- ueps_val. exact He.
  - eapply Rle_trans; [exact Hn|]. replace (-1075)%Z with (-1 + -1074)%Z by reflexivity. rewrite bpow_plus. change (bpow radix2 (-1)) with (/ 2). lra.
Qed.
Lemma f1_ok : fin f1 = true /\ val f1 = 1.
Proof. destruct (lit_ok 1 0 ltac:(cbn; lia) ltac:(lia)) as [F V]. split; [exact F|]. unfold f1. rewrite V. change (bpow radix2 0) with 1. ring. Qed.

Section Bounds.
Variables (Zf : f64) (lo hi S : R).
Hypothesis (Hlo : bpow radix2 (-300) <= lo) (Hlh : lo <= hi) (Hhi : hi <= bpow radix2 300).
Hypothesis (FZ : fin Zf = true) (PZ : 0 < val Zf) (ZS : val Zf <= S) (LS : bpow radix2 (-300) <= S) (HS : S <= bpow radix2 301).
Let Z := val Zf.
Let W := / lo.
Let U := ueps * (W * S).

Lemma lo_pos : 0 < lo. Proof. eapply Rlt_le_trans; [apply bpow_gt_0|exact Hlo]. Qed.
Lemma S_pos : 0 < S. Proof. eapply Rlt_le_trans; [apply bpow_gt_0|exact LS]. Qed.
Lemma W_range : bpow radix2 (-300) <= W <= bpow radix2 300.
Proof.
  pose proof lo_pos as P. unfold W. change (-300)%Z with (- (300))%Z at 1. rewrite bpow_opp. replace (bpow radix2 300) with (/ bpow radix2 (-300)) at 2.
  - split; apply Rinv_le; try assumption; [|apply bpow_gt_0]. lra.
  - change (-300)%Z with (- (300))%Z. rewrite bpow_opp. apply Rinv_inv.
Qed.
Lemma W_pos : 0 < W. Proof. unfold W. apply Rinv_0_lt_compat, lo_pos. Qed.
Lemma WS_pos : 0 < W * S. Proof. apply Rmult_lt_0_compat; [apply W_pos|apply S_pos]. Qed.
Lemma U_pos : 0 < U. Proof. unfold U. apply Rmult_lt_0_compat; [apply ueps_pos|apply WS_pos]. Qed.
Lemma eta_U : bpow radix2 (-1075) <= U / 100.
Proof.
  assert (B : bpow radix2 (-653) <= U).
  { unfold U. replace (-653)%Z with (-53 + (-300 + -300))%Z by reflexivity. rewrite !bpow_plus. apply Rmult_le_compat; [apply bpow_ge_0|apply Rmult_le_pos; apply bpow_ge_0| |].
    - change (bpow radix2 (-53)) with (/ IZR (2 ^ 53)). unfold ueps. right. f_equal. simpl. lra.
    - apply Rmult_le_compat; try apply bpow_ge_0; [apply W_range|exact LS]. }
  assert (C : bpow radix2 (-1075) <= bpow radix2 (-660)) by (apply bpow_le; lia).
  assert (D : 128 * bpow radix2 (-660) = bpow radix2 (-653)). { replace (-653)%Z with (7 + -660)%Z by reflexivity. rewrite bpow_plus. change (bpow radix2 7) with 128. reflexivity. }
  pose proof (bpow_gt_0 radix2 (-660)). lra.
Qed.
Lemma big x : Rabs x <= 4 * S \/ Rabs x <= 8 * (W * S) -> Rabs (rnd x) < top64.
Proof.
  intros H. assert (B : Rabs x <= bpow radix2 700).
  { destruct H as [H|H]; (eapply Rle_trans; [exact H|]).
    - apply Rle_trans with (bpow radix2 2 * bpow radix2 301); [change (bpow radix2 2) with 4; lra|]. rewrite <- bpow_plus. apply bpow_le. lia.
    - apply Rle_trans with (bpow radix2 3 * (bpow radix2 300 * bpow radix2 301)).
      + change (bpow radix2 3) with 8. apply Rmult_le_compat_l; [lra|]. apply Rmult_le_compat; [apply Rlt_le, W_pos|apply Rlt_le, S_pos|apply W_range|exact HS].
      + rewrite <- !bpow_plus. apply bpow_le. lia. }
  rewrite <- rnd_abs. apply Rle_lt_trans with (bpow radix2 700); [|apply bpow_lt; lia].
  apply (rnd_between (Rabs x) 0 (bpow radix2 700)); [apply dbl_0|apply generic_format_bpow; unfold fexp64, FLT_exp; lia|]. split; [apply Rabs_pos|exact B].
Qed.
Lemma add_err x y : fin x = true -> fin y = true -> Rabs (val x + val y) <= 4 * S \/ Rabs (val x + val y) <= 8 * (W * S) ->
  fin (fadd x y) = true /\ Rabs (val (fadd x y) - (val x + val y)) <= ueps * Rabs (val x + val y).
Proof.
  intros Fx Fy B. destruct (fadd_fin x y Fx Fy (big _ B)) as [F V]. split; [exact F|]. rewrite V. destruct (rnd_plus' (val x) (val y) (val_dbl _) (val_dbl _)) as (e & He & ->).
  replace ((val x + val y) * (1 + e) - (val x + val y)) with (e * (val x + val y)) by ring. rewrite Rabs_mult. apply Rmult_le_compat_r; [apply Rabs_pos|exact He].
Qed.
Lemma sub_err x y : fin x = true -> fin y = true -> Rabs (val x - val y) <= 4 * S ->
  fin (fsub x y) = true /\ Rabs (val (fsub x y) - (val x - val y)) <= ueps * Rabs (val x - val y).
Proof.
  intros Fx Fy B. destruct (fsub_fin x y Fx Fy (big _ (or_introl B))) as [F V]. split; [exact F|]. rewrite V.
  destruct (rnd_plus' (val x) (- val y) (val_dbl _) ltac:(apply generic_format_opp, val_dbl)) as (e & He & E). change (val x + - val y) with (val x - val y) in E. rewrite E.
  replace ((val x - val y) * (1 + e) - (val x - val y)) with (e * (val x - val y)) by ring. rewrite Rabs_mult. apply Rmult_le_compat_r; [apply Rabs_pos|exact He].
Qed.
(** One layer's time. *)
Lemma slowness v : fin v = true -> lo <= val v <= hi -> fin (fdiv f1 v) = true /\ 0 < / val v <= W /\ Rabs (val (fdiv f1 v) - / val v) <= ueps * W /\ Rabs (val (fdiv f1 v)) <= 2 * W.
Proof.
  intros Fv [L H]. pose proof lo_pos as P. destruct f1_ok as [F1 V1]. pose proof ueps_pos as U0. pose proof ueps_small as U4. pose proof W_pos as WP.
  assert (I : 0 < / val v <= W) by (split; [apply Rinv_0_lt_compat; lra|unfold W; apply Rinv_le; lra]).
  assert (Lw : bpow radix2 (-300) <= / val v).
  { change (-300)%Z with (- (300))%Z. rewrite bpow_opp. apply Rinv_le; lra. }
  assert (E1 : val f1 / val v = / val v) by (rewrite V1; unfold Rdiv; ring).
  destruct (rnd_rel (/ val v)) as (e & He & E). { rewrite Rabs_pos_eq by lra. eapply Rle_trans; [|exact Lw]. apply bpow_le. lia. }
  assert (Bd : Rabs (rnd (/ val v)) <= 2 * W). { rewrite E, Rabs_mult, (Rabs_pos_eq (/ val v)) by lra. assert (Rabs (1 + e) <= 2) by (apply Rabs_le_inv in He; apply Rabs_le; lra). pose proof (Rabs_pos (1 + e)). nra. }
  destruct (fdiv_fin f1 v F1 ltac:(lra)) as [F V].
  { rewrite E1. eapply Rle_lt_trans; [exact Bd|]. apply Rle_lt_trans with (bpow radix2 1 * bpow radix2 300); [change (bpow radix2 1) with 2; apply Rmult_le_compat_l; [lra|apply W_range]|]. rewrite <- bpow_plus. apply bpow_lt. lia. }
  rewrite V, E1. split; [exact F|]. split; [exact I|]. split; [|exact Bd]. rewrite E. replace (/ val v * (1 + e) - / val v) with (e * / val v) by ring.
  rewrite Rabs_mult, (Rabs_pos_eq (/ val v)) by lra. apply Rmult_le_compat; [apply Rabs_pos|lra|exact He|apply I].
Qed.
Lemma layer_time v x m : fin v = true -> lo <= val v <= hi -> fin x = true -> Rabs (val x) <= 3 * S ->
  fin (fmul (fdiv f1 v) x) = true /\ Rabs (val (fmul (fdiv f1 v) x) - m / val v) <= 10 * U + W * Rabs (val x - m).
Proof.
  intros Fv Hv Fx Bx. destruct (slowness v Fv Hv) as (Fs & I & Es & Bs). pose proof W_pos as WP. pose proof S_pos as SP. pose proof ueps_pos as U0. pose proof (Rabs_pos (val x)) as X0. pose proof eta_U as Eta. pose proof U_pos as UP.
  assert (B : Rabs (val (fdiv f1 v) * val x) <= 6 * (W * S)).
  { rewrite Rabs_mult. apply Rle_trans with (2 * W * (3 * S)); [|right; ring]. apply Rmult_le_compat; [apply Rabs_pos|apply Rabs_pos|exact Bs|exact Bx]. }
  pose proof WS_pos as WSP. assert (B' : Rabs (val (fdiv f1 v) * val x) <= 8 * (W * S)) by lra. destruct (fmul_fin (fdiv f1 v) x Fs Fx (big _ (or_intror B'))) as [F V]. split; [exact F|]. rewrite V.
  pose proof (rnd_err (val (fdiv f1 v) * val x)) as E1.
  assert (E2 : ueps * Rabs (val (fdiv f1 v) * val x) <= 6 * U) by (unfold U; apply Rle_trans with (ueps * (6 * (W * S))); [apply Rmult_le_compat_l; lra|right; ring]).
  assert (E3 : Rabs (val (fdiv f1 v) * val x - val x / val v) <= 3 * U).
  { replace (val (fdiv f1 v) * val x - val x / val v) with ((val (fdiv f1 v) - / val v) * val x) by (unfold Rdiv; ring). rewrite Rabs_mult.
    apply Rle_trans with (ueps * W * (3 * S)); [apply Rmult_le_compat; [apply Rabs_pos|apply Rabs_pos|exact Es|exact Bx]|unfold U; right; ring]. }
  assert (E4 : Rabs (val x / val v - m / val v) <= W * Rabs (val x - m)).
  { replace (val x / val v - m / val v) with (/ val v * (val x - m)) by (unfold Rdiv; ring). rewrite Rabs_mult, (Rabs_pos_eq (/ val v)) by lra. apply Rmult_le_compat_r; [apply Rabs_pos|apply I]. }
  replace (rnd (val (fdiv f1 v) * val x) - m / val v) with ((rnd (val (fdiv f1 v) * val x) - val (fdiv f1 v) * val x) + (val (fdiv f1 v) * val x - val x / val v) + (val x / val v - m / val v)) by ring.
  eapply Rle_trans; [apply Rabs_triang|]. eapply Rle_trans; [apply Rplus_le_compat_r, Rabs_triang|]. lra.
Qed.
(** Adding it to the time so far. *)
Lemma add_time k c t C T x : fin c = true -> fin t = true -> 0 <= C -> 0 <= T -> C + T <= W * S -> 0 <= k -> 0 <= x -> (k + x) * ueps <= / 100 ->
  Rabs (val c - C) <= k * U -> Rabs (val t - T) <= x * U -> fin (fadd c t) = true /\ Rabs (val (fadd c t) - (C + T)) <= (k + x + 2) * U.
Proof.
  intros Fc Ft C0 T0 CT K0 X0 Sm Ec Et. pose proof WS_pos as WSP. pose proof ueps_pos as U0. pose proof U_pos as UP.
  assert (B : Rabs (val c + val t) <= 2 * (W * S)).
  { assert (Q : (k + x) * U <= W * S). { unfold U. replace ((k + x) * (ueps * (W * S))) with ((k + x) * ueps * (W * S)) by ring. nra. }
    apply Rabs_le_inv in Ec. apply Rabs_le_inv in Et. apply Rabs_le. lra. }
  assert (B' : Rabs (val c + val t) <= 8 * (W * S)) by lra. destruct (add_err c t Fc Ft (or_intror B')) as [F E]. split; [exact F|].
  assert (E2 : ueps * Rabs (val c + val t) <= 2 * U) by (unfold U; apply Rle_trans with (ueps * (2 * (W * S))); [apply Rmult_le_compat_l; lra|right; ring]).
  apply Rabs_le_inv in Ec. apply Rabs_le_inv in Et. apply Rabs_le_inv in E. apply Rabs_le. lra.
Qed.
(** Depths. *)
Lemma add_depth k d h D : thickness d -> thickness h -> 0 <= D -> D + val h <= S -> 0 <= k -> k * ueps <= / 100 -> Rabs (val d - D) <= 2 * k * (ueps * S) ->
  thickness (fadd d h) /\ Rabs (val (fadd d h) - (D + val h)) <= 2 * (k + 1) * (ueps * S) /\ val (fadd d h) <= 2 * S.
Proof.
  intros Td Th D0 DS K0 Sm E. pose proof S_pos as SP. pose proof ueps_pos as U0. pose proof ueps_small as U4. destruct Td as [Fd Vd], Th as [Fh Vh].
  assert (Q : k * (ueps * S) <= / 100 * S). { replace (k * (ueps * S)) with (k * ueps * S) by ring. apply Rmult_le_compat_r; lra. }
  apply Rabs_le_inv in E. assert (B : Rabs (val d + val h) <= 1.5 * S) by (rewrite Rabs_pos_eq; lra).
  destruct (add_err d h Fd Fh ltac:(left; lra)) as [F E2]. assert (E3 : ueps * Rabs (val d + val h) <= 1.5 * (ueps * S)) by (apply Rle_trans with (ueps * (1.5 * S)); [apply Rmult_le_compat_l; lra|right; ring]).
  apply Rabs_le_inv in E2. assert (US : ueps * S <= / 4 * S) by (apply Rmult_le_compat_r; lra).
  assert (Vs : 0 <= val (fadd d h)). { rewrite fadd_val by assumption. apply rnd_nonneg. lra. }
  split; [split; assumption|]. rewrite Rabs_pos_eq in B by lra. split; [apply Rabs_le; split; lra|lra].
Qed.

Lemma travel_bounds D p : rows_ok lo hi p -> 0 <= D -> 0 <= travel D Z p <= W * (Rmin (D + depth_of p) Z - Rmin D Z).
Proof.
  revert D. induction p as [|[h v] p IH]; intros D H D0; unfold depth_of in *; cbn [travel map fst total].
  - rewrite Rplus_0_r. lra.
  - inversion H as [|? ? ([Fh Vh] & Fv & Hv) Hp]; subst. cbn [fst snd] in *. specialize (IH (D + val h) Hp ltac:(lra)). destruct (slowness v Fv Hv) as (_ & I & _).
    assert (M : 0 <= Rmin (D + val h) Z - Rmin D Z) by (unfold Rmin; destruct (Rle_dec (D + val h) Z), (Rle_dec D Z); lra).
    assert (0 <= (Rmin (D + val h) Z - Rmin D Z) / val v <= W * (Rmin (D + val h) Z - Rmin D Z)) by (unfold Rdiv; split; [apply Rmult_le_pos; lra|rewrite Rmult_comm; apply Rmult_le_compat_r; [exact M|apply I]]).
    rewrite <- Rplus_assoc. lra.
Qed.
Lemma travel_low D p : rows_ok lo hi p -> 0 <= D -> (Rmin (D + depth_of p) Z - Rmin D Z) / hi <= travel D Z p.
Proof.
  pose proof lo_pos as P. revert D. induction p as [|[h v] p IH]; intros D H D0; unfold depth_of in *; cbn [travel map fst total].
  - rewrite Rplus_0_r. unfold Rdiv. lra.
  - inversion H as [|? ? ([Fh Vh] & Fv & Hv) Hp]; subst. cbn [fst snd] in *. specialize (IH (D + val h) Hp ltac:(lra)).
    assert (M : 0 <= Rmin (D + val h) Z - Rmin D Z) by (unfold Rmin; destruct (Rle_dec (D + val h) Z), (Rle_dec D Z); lra).
    assert ((Rmin (D + val h) Z - Rmin D Z) / hi <= (Rmin (D + val h) Z - Rmin D Z) / val v) by (unfold Rdiv; apply Rmult_le_compat_l; [exact M|apply Rinv_le; lra]).
    rewrite <- Rplus_assoc. unfold Rdiv in *. lra.
Qed.
Lemma fold_ge p d : thickness d -> rows_ok lo hi p -> fle Zf d = true -> flt (fold_left fadd (map fst p) d) Zf = false.
Proof.
  intros Td. pose proof (thickness_ge0 d Td) as D0. clear Td. revert d D0. induction p as [|[h v] p IH]; intros d D0 H L; cbn [map fst fold_left].
  - rewrite flt_not_fle; [rewrite L; reflexivity| |exact D0]. apply fle_val; [reflexivity|exact FZ|rewrite f0_val; lra].
  - inversion H as [|? ? (Th & _) Hp]; subst. cbn [fst] in Th. destruct (fadd_ge0 d h D0 (thickness_ge0 h Th)) as [A B]. apply IH; [exact A|exact Hp|].
    apply (fle_trans0 Zf d); try assumption. apply fle_val; [reflexivity|exact FZ|rewrite f0_val; lra].
Qed.

(** The whole loop. *)
Definition over (x : R) : R := Rmax (x - Z) 0.
Lemma loop p : forall k dep cum D C, rows_ok lo hi p -> thickness dep -> fin cum = true -> 0 <= D -> 0 <= C <= W * D -> D + depth_of p <= S ->
  0 <= k -> (k + INR (length p) + 10) * ueps <= / 10000 -> Rabs (val dep - D) <= 2 * k * (ueps * S) -> Rabs (val cum - C) <= 15 * k * U -> val dep < Z ->
  let r := slow_f Zf dep cum p in let t := fold_left fadd (map fst p) dep in let N := k + INR (length p) in
  fin r = true /\ Rabs (val r - (C + travel D Z p)) <= (40 * N + 60) * U - W * over D /\ (flt t Zf = true -> thickness t /\ Rabs (val t - (D + depth_of p)) <= 2 * N * (ueps * S)).
Proof.
  pose proof S_pos as SP. pose proof W_pos as WP. pose proof ueps_pos as U0. pose proof U_pos as UP. pose proof lo_pos as LP.
  assert (UE : W * (ueps * S) = U) by (unfold U; ring). assert (US0 : 0 < ueps * S) by (apply Rmult_lt_0_compat; assumption).
  induction p as [|[h v] p IH]; intros k dep cum D C H Td Fc D0 HC DS K0 Sm Ed Ec DZ; cbv zeta.
  - cbn [slow_f map fold_left travel length INR]. unfold depth_of. cbn [map total]. rewrite !Rplus_0_r. split; [exact Fc|]. split; [|intros _; split; assumption].
    assert (Ov : over D <= 2 * k * (ueps * S)) by (apply Rabs_le_inv in Ed; unfold over; apply Rmax_lub; [unfold Z in *; lra|]; apply Rmult_le_pos; lra).
    assert (W * over D <= 2 * k * U) by (rewrite <- UE; replace (2 * k * (W * (ueps * S))) with (W * (2 * k * (ueps * S))) by ring; apply Rmult_le_compat_l; lra).
    assert (0 <= k * U) by (apply Rmult_le_pos; lra). lra.
  - inversion H as [|? ? (Th & Fv & Hv) Hp]; subst. cbn [fst snd] in *. unfold depth_of in DS |- *. cbn [map fst total] in DS |- *. fold (depth_of p) in DS |- *.
    assert (T0 : 0 <= depth_of p). { apply total_nonneg, Forall_map. eapply Forall_impl; [|exact Hp]. intros a Ha. apply Ha. }
    cbn [length] in Sm |- *. rewrite S_INR in Sm |- *. pose proof (pos_INR (length p)) as N0. set (n := INR (length p)) in *.
    assert (Ku : k * ueps <= / 10000) by (assert (0 <= (n + 11) * ueps) by (apply Rmult_le_pos; lra); lra).
    assert (U10 : 10 * ueps <= / 10000) by (assert (0 <= (k + n + 1) * ueps) by (apply Rmult_le_pos; lra); lra).
    pose proof Th as [Fh Vh]. destruct (add_depth k dep h D Td Th D0 ltac:(lra) K0 ltac:(lra) Ed) as (Td' & Ed' & Bd'). set (d := fadd dep h) in *.
    assert (Ov : over D <= 2 * k * (ueps * S)) by (apply Rabs_le_inv in Ed; unfold over; apply Rmax_lub; [unfold Z in *; lra|]; apply Rmult_le_pos; lra).
    assert (Ov0 : 0 <= over D) by (unfold over; apply Rmax_r).
    assert (KU : 0 <= k * U) by (apply Rmult_le_pos; lra). assert (NU : 0 <= n * U) by (apply Rmult_le_pos; lra).
    destruct (slowness v Fv Hv) as (Fs & Iv & _ & _). cbn [slow_f map fst fold_left travel]. fold d.
    destruct (flt d Zf) eqn:Lt.
    + (* the whole layer *)
      assert (Le : fle Zf d = false). { apply flt_val in Lt; [|apply Td'|exact FZ]. destruct (fle Zf d) eqn:Q; [|reflexivity]. apply fle_val in Q; [lra|exact FZ|apply Td']. }
      rewrite Le. apply flt_val in Lt; [|apply Td'|exact FZ]. fold Z in Lt.
      assert (Bh : Rabs (val h) <= 3 * S) by (rewrite Rabs_pos_eq; lra).
      destruct (layer_time v h (val h) Fv Hv Fh Bh) as [Ft Et]. rewrite (Rminus_diag_eq (val h) (val h) eq_refl), Rabs_R0, Rmult_0_r, Rplus_0_r in Et.
      assert (T1 : 0 <= val h / val v <= W * val h) by (unfold Rdiv; split; [apply Rmult_le_pos; lra|rewrite Rmult_comm; apply Rmult_le_compat_r; [exact Vh|apply Iv]]).
      assert (CT : C + val h / val v <= W * S). { apply Rle_trans with (W * (D + val h)); [lra|]. apply Rmult_le_compat_l; lra. }
      destruct (add_time (15 * k) cum (fmul (fdiv f1 v) h) C (val h / val v) 10 Fc Ft ltac:(lra) ltac:(lra) CT ltac:(lra) ltac:(lra) ltac:(lra) Ec Et) as [Fc' Ec'].
      assert (Sm' : (k + 1 + n + 10) * ueps <= / 10000) by lra.
      assert (Ec'' : Rabs (val (fadd cum (fmul (fdiv f1 v) h)) - (C + val h / val v)) <= 15 * (k + 1) * U) by (eapply Rle_trans; [exact Ec'|]; lra).
      destruct (IH (k + 1) d (fadd cum (fmul (fdiv f1 v) h)) (D + val h) (C + val h / val v) Hp Td' Fc' ltac:(lra) ltac:(lra) ltac:(lra) ltac:(lra) Sm' Ed' Ec'' Lt) as (Fr & Er & Ht).
      replace (k + 1 + n) with (k + (n + 1)) in Er, Ht by ring. split; [exact Fr|]. split; [|intros Q; rewrite <- Rplus_assoc; apply Ht, Q].
      (* the part of the layer below Z that should not have been counted *)
      assert (O : (val h - (Rmin (D + val h) Z - Rmin D Z)) = over (D + val h) - over D).
      { unfold over, Rmin, Rmax. repeat match goal with |- context [Rle_dec ?a ?b] => destruct (Rle_dec a b) end; lra. }
      assert (O1 : 0 <= over (D + val h) - over D) by (unfold over, Rmax; repeat match goal with |- context [Rle_dec ?a ?b] => destruct (Rle_dec a b) end; lra).
      assert (O2 : 0 <= val h / val v - (Rmin (D + val h) Z - Rmin D Z) / val v <= W * (over (D + val h) - over D)).
      { replace (val h / val v - (Rmin (D + val h) Z - Rmin D Z) / val v) with (/ val v * (val h - (Rmin (D + val h) Z - Rmin D Z))) by (unfold Rdiv; ring). rewrite O. split; [apply Rmult_le_pos; lra|]. apply Rmult_le_compat_r; lra. }
      apply Rabs_le_inv in Er. apply Rabs_le. split; lra.
    + (* part of the layer *)
      assert (Le : Z <= val d). { apply Rnot_lt_le. intros Q. apply flt_val in Q; [congruence|apply Td'|exact FZ]. }
      assert (LeB : fle Zf d = true) by (apply fle_val; [exact FZ|apply Td'|exact Le]). rewrite LeB.
      assert (B1 : Rabs (val d - val Zf) <= 2 * S) by (rewrite Rabs_pos_eq; fold Z; unfold Z in *; lra).
      destruct (sub_err d Zf (proj1 Td') FZ ltac:(lra)) as [F1 E1]. set (q := fsub d Zf) in *.
      assert (E1' : Rabs (val q - (val d - Z)) <= 2 * (ueps * S)) by (eapply Rle_trans; [exact E1|]; apply Rle_trans with (ueps * (2 * S)); [apply Rmult_le_compat_l; lra|right; ring]).
      assert (US : ueps * S <= / 10000 * S) by (apply Rmult_le_compat_r; [lra|]; nra). apply Rabs_le_inv in E1'.
      assert (Kus : k * (ueps * S) <= / 10000 * S) by (replace (k * (ueps * S)) with (k * ueps * S) by ring; apply Rmult_le_compat_r; lra).
      apply Rabs_le_inv in Ed'. apply Rabs_le_inv in Ed.
      assert (B2 : Rabs (val h - val q) <= 2 * S) by (apply Rabs_le; unfold Z in *; lra).
      destruct (sub_err h q Fh F1 ltac:(lra)) as [F2 E2]. set (w := fsub h q) in *.
      assert (E2' : Rabs (val w - (val h - val q)) <= 2 * (ueps * S)) by (eapply Rle_trans; [exact E2|]; apply Rle_trans with (ueps * (2 * S)); [apply Rmult_le_compat_l; lra|right; ring]).
      apply Rabs_le_inv in E2'. set (m := Rmin (D + val h) Z - Rmin D Z).
      assert (M : Rabs (val w - m) <= (4 * k + 8) * (ueps * S)).
      { assert (X : Rabs (Z - D - m) <= 2 * (k + 1) * (ueps * S)).
        { unfold m, Rmin. destruct (Rle_dec (D + val h) Z), (Rle_dec D Z); apply Rabs_le; unfold Z in *; lra. }
        apply Rabs_le_inv in X. apply Rabs_le. lra. }
      assert (B3 : Rabs (val w) <= 3 * S) by (apply Rabs_le; apply Rabs_le_inv in B2; lra).
      destruct (layer_time v w m Fv Hv F2 B3) as [Ft Et].
      assert (WM : W * Rabs (val w - m) <= (4 * k + 8) * U) by (rewrite <- UE; replace ((4 * k + 8) * (W * (ueps * S))) with (W * ((4 * k + 8) * (ueps * S))) by ring; apply Rmult_le_compat_l; lra).
      assert (Et' : Rabs (val (fmul (fdiv f1 v) w) - m / val v) <= (4 * k + 18) * U) by (eapply Rle_trans; [exact Et|]; lra).
      assert (M0 : 0 <= m <= val h) by (unfold m, Rmin; destruct (Rle_dec (D + val h) Z), (Rle_dec D Z); lra).
      assert (T1 : 0 <= m / val v <= W * val h).
      { unfold Rdiv. split; [apply Rmult_le_pos; lra|]. rewrite Rmult_comm. apply Rmult_le_compat; lra. }
      assert (CT : C + m / val v <= W * S). { apply Rle_trans with (W * (D + val h)); [lra|]. apply Rmult_le_compat_l; lra. }
      destruct (add_time (15 * k) cum (fmul (fdiv f1 v) w) C (m / val v) (4 * k + 18) Fc Ft ltac:(lra) ltac:(lra) CT ltac:(lra) ltac:(lra) ltac:(nra) Ec Et') as [Fr Er].
      split; [exact Fr|]. split; [|intros Q; exfalso; rewrite fold_ge in Q; [discriminate|exact Td'|exact Hp|exact LeB]].
      (* the layers below are not counted *)
      destruct (travel_bounds (D + val h) p Hp ltac:(lra)) as [G1 G2].
      assert (G3 : Rmin (D + val h + depth_of p) Z - Rmin (D + val h) Z <= 2 * (k + 1) * (ueps * S)).
      { unfold Rmin. destruct (Rle_dec (D + val h + depth_of p) Z), (Rle_dec (D + val h) Z); unfold Z in *; lra. }
      assert (G4 : W * (Rmin (D + val h + depth_of p) Z - Rmin (D + val h) Z) <= 2 * (k + 1) * U) by (rewrite <- UE; replace (2 * (k + 1) * (W * (ueps * S))) with (W * (2 * (k + 1) * (ueps * S))) by ring; apply Rmult_le_compat_l; lra).
      assert (OU : W * over D <= 2 * k * U) by (rewrite <- UE; replace (2 * k * (W * (ueps * S))) with (W * (2 * k * (ueps * S))) by ring; apply Rmult_le_compat_l; lra).
      fold m. apply Rabs_le_inv in Er. apply Rabs_le. split; lra.
Qed.

(** The total thickness, added from the top. *)
Lemma fold_err p : forall k d D, rows_ok lo hi p -> thickness d -> 0 <= D -> D + depth_of p <= S -> 0 <= k -> (k + INR (length p)) * ueps <= / 100 -> Rabs (val d - D) <= 2 * k * (ueps * S) ->
  thickness (fold_left fadd (map fst p) d) /\ Rabs (val (fold_left fadd (map fst p) d) - (D + depth_of p)) <= 2 * (k + INR (length p)) * (ueps * S).
Proof.
  pose proof ueps_pos as U0. induction p as [|[h v] p IH]; intros k d D H Td D0 DS K0 Sm E.
  - cbn [map fold_left length INR]. unfold depth_of. cbn [map total]. rewrite !Rplus_0_r. split; assumption.
  - inversion H as [|? ? (Th & Fv & Hv) Hp]; subst. cbn [fst snd] in *. unfold depth_of in DS |- *. cbn [map fst total fold_left] in DS |- *. fold (depth_of p) in DS |- *.
    assert (T0 : 0 <= depth_of p). { apply total_nonneg, Forall_map. eapply Forall_impl; [|exact Hp]. intros a Ha. apply Ha. }
    cbn [length] in Sm |- *. rewrite S_INR in Sm |- *. pose proof (pos_INR (length p)) as N0. set (n := INR (length p)) in *. pose proof Th as [Fh Vh].
    assert (Ku : k * ueps <= / 100) by (assert (0 <= (n + 1) * ueps) by (apply Rmult_le_pos; lra); lra).
    destruct (add_depth k d h D Td Th D0 ltac:(lra) K0 Ku E) as (Td' & Ed' & _).
    destruct (IH (k + 1) (fadd d h) (D + val h) Hp Td' ltac:(lra) ltac:(lra) ltac:(lra) ltac:(lra) Ed') as [A B].
    split; [exact A|]. rewrite <- Rplus_assoc. replace (k + (n + 1)) with (k + 1 + n) by ring. exact B.
Qed.
(** The quotient. *)
Lemma quotient A c M T a b : fin A = true -> fin c = true -> 0 < M -> 0 <= a -> 0 <= b -> M / hi <= T -> T <= W * M ->
  Rabs (val A - M) <= a * (ueps * S) -> Rabs (val c - T) <= b * U -> (a + b + 2) * ueps * (hi / lo * (S / M)) <= / 100 -> M <= S ->
  fin (fdiv A c) = true /\ Rabs (val (fdiv A c) - M / T) <= (11 / 10 * (a + b) + 2) * ueps * (hi / lo * (S / M)) * (M / T).
Proof.
  intros FA Fc M0 a0 b0 TL TU EA Ec Sm MS. pose proof lo_pos as P. pose proof ueps_pos as U0. pose proof S_pos as SP. pose proof W_pos as WP.
  set (K := hi / lo * (S / M)) in *.
  assert (HL : 1 <= hi / lo) by (apply Rmult_le_reg_r with lo; [lra|]; unfold Rdiv; rewrite Rmult_assoc, Rinv_l by lra; lra).
  assert (SM : 1 <= S / M) by (apply Rmult_le_reg_r with M; [lra|]; unfold Rdiv; rewrite Rmult_assoc, Rinv_l by lra; lra).
  assert (K1 : S / M <= K) by (unfold K; nra). assert (T0 : 0 < T) by (eapply Rlt_le_trans; [|exact TL]; apply Rdiv_lt_0_compat; lra).
  set (da := a * ueps * K). set (db := b * ueps * K).
  assert (Da : 0 <= da) by (unfold da; apply Rmult_le_pos; [apply Rmult_le_pos; lra|lra]). assert (Db : 0 <= db) by (unfold db; apply Rmult_le_pos; [apply Rmult_le_pos; lra|lra]).
  assert (Uk : ueps <= ueps * K) by nra. assert (Sm' : da + db + 2 * (ueps * K) <= / 100) by (unfold da, db; lra).
  assert (EA' : Rabs (val A - M) <= da * M).
  { eapply Rle_trans; [exact EA|]. unfold da. replace S with (S / M * M) by (field; lra). replace (a * (ueps * (S / M * M))) with (a * ueps * (S / M) * M) by ring.
    apply Rmult_le_compat_r; [lra|]. apply Rmult_le_compat_l; [apply Rmult_le_pos; lra|exact K1]. }
  assert (Ec' : Rabs (val c - T) <= db * T).
  { eapply Rle_trans; [exact Ec|]. unfold U, W, db. apply Rle_trans with (b * ueps * K * (M / hi)); [right; unfold K; field; repeat split; lra|].
    apply Rmult_le_compat_l; [exact Db|exact TL]. }
  assert (EE : forall r, (11 / 10 * (a + b) + 2) * ueps * K * r = 11 / 10 * ((da + db) * r) + 2 * (ueps * K * r)) by (intros r; unfold da, db; ring).
  clearbody K da db. apply Rabs_le_inv in EA'. apply Rabs_le_inv in Ec'. set (r := M / T). assert (r0 : 0 < r) by (apply Rdiv_lt_0_compat; assumption).
  assert (c0 : 0 < val c) by nra. assert (EM : M = r * T) by (unfold r; field; lra).
  assert (Q : Rabs (val A / val c - r) <= 105 / 100 * (da + db) * r).
  { assert (QE : val A / val c * val c = val A) by (field; lra). set (q := val A / val c) in *. clearbody q r. subst M.
    assert (X1 : (q - r) * val c <= (da + db) * (r * T)) by nra. assert (X2 : - ((da + db) * (r * T)) <= (q - r) * val c) by nra.
    assert (CT : 98 / 100 * T <= val c) by nra. assert (RT : 0 < r * T) by (apply Rmult_lt_0_compat; lra).
    assert (L : 0 <= 105 / 100 * (da + db) * r) by (apply Rmult_le_pos; [|lra]; lra).
    assert (B : (da + db) * (r * T) <= 105 / 100 * (da + db) * r * val c).
    { apply Rle_trans with (105 / 100 * (da + db) * r * (98 / 100 * T)); [|apply Rmult_le_compat_l; assumption].
      replace (105 / 100 * (da + db) * r * (98 / 100 * T)) with (105 / 100 * (98 / 100) * ((da + db) * (r * T))) by ring.
      assert (0 <= (da + db) * (r * T)) by (apply Rmult_le_pos; lra). lra. }
    apply Rabs_le. split; apply Rmult_le_reg_r with (val c); try exact c0; lra. }
  assert (rlo : lo <= r). { unfold r. apply Rmult_le_reg_r with T; [exact T0|]. replace (M / T * T) with M by (field; lra). apply Rle_trans with (lo * (W * M)); [apply Rmult_le_compat_l; lra|]. unfold W. right. field. lra. }
  assert (rhi : r <= hi). { unfold r. apply Rmult_le_reg_r with T; [exact T0|]. replace (M / T * T) with M by (field; lra). apply Rle_trans with (hi * (M / hi)); [right; field; lra|]. apply Rmult_le_compat_l; lra. }
  assert (Qb : 95 / 100 * r <= val A / val c <= 105 / 100 * r).
  { apply Rabs_le_inv in Q. assert (105 / 100 * (da + db) * r <= 2 / 100 * r) by (apply Rmult_le_compat_r; lra). lra. }
  assert (QP : bpow radix2 (-301) <= val A / val c <= bpow radix2 301).
  { replace (-301)%Z with (-1 + -300)%Z by reflexivity. replace 301%Z with (1 + 300)%Z by reflexivity. rewrite !bpow_plus. change (bpow radix2 (-1)) with (/ 2). change (bpow radix2 1) with 2. lra. }
  pose proof (bpow_gt_0 radix2 (-301)) as B0.
  destruct (rnd_rel (val A / val c)) as (e & He & E). { rewrite Rabs_pos_eq by lra. eapply Rle_trans; [|apply QP]. apply bpow_le. lia. }
  assert (cN : val c <> 0) by lra. destruct (fdiv_fin A c FA cN) as [F V].
  { rewrite <- rnd_abs, Rabs_pos_eq by lra. apply Rle_lt_trans with (bpow radix2 301); [|apply bpow_lt; lia].
    apply (rnd_between (val A / val c) 0 (bpow radix2 301)); [apply dbl_0|apply generic_format_bpow; unfold fexp64, FLT_exp; lia|lra]. }
  split; [exact F|]. rewrite V, E. replace (val A / val c * (1 + e) - r) with ((val A / val c - r) + e * (val A / val c)) by ring. eapply Rle_trans; [apply Rabs_triang|].
  rewrite Rabs_mult, (Rabs_pos_eq (val A / val c)) by lra.
  assert (Rabs e * (val A / val c) <= ueps * (105 / 100 * r)) by (apply Rmult_le_compat; [apply Rabs_pos|lra|exact He|lra]).
  assert (ueps * r <= ueps * K * r) by (apply Rmult_le_compat_r; lra). assert (0 <= (da + db) * r) by (apply Rmult_le_pos; lra).
  rewrite EE. assert (0 < ueps * r) by (apply Rmult_lt_0_compat; assumption). lra.
Qed.
End Bounds.

(** The depth that counts; how much the errors are magnified: by the spread of the velocities
    and by the ratio of all depths to the one that counts. *)
Definition reach (p : list frow) (Z : R) (option_ : nat) : R :=
  match option_ with 1%nat => Z | _ => Rmin (depth_of p) Z end.
Definition spread (lo hi : R) (p : list frow) (Z : R) (option_ : nat) : R := hi / lo * ((depth_of p + Z) / reach p Z option_).
Definition bound (lo hi : R) (p : list frow) (Z : R) (option_ : nat) : R :=
  (50 * INR (length p) + 100) * ueps * spread lo hi p Z option_.

Lemma depth_nonneg lo hi p : rows_ok lo hi p -> 0 <= depth_of p.
Proof. intros H. apply total_nonneg, Forall_map. eapply Forall_impl; [|exact H]. intros a Ha. apply Ha. Qed.
Lemma last_row lo hi p : p <> [] -> rows_ok lo hi p -> fin (last (map snd p) f0) = true /\ lo <= val (last (map snd p) f0) <= hi.
Proof.
  intros Ne H. destruct (@exists_last _ p Ne) as (q & r & ->). rewrite map_app. cbn [map]. rewrite last_last. apply Forall_app in H as [_ H]. inversion H as [|? ? Hr _]; subst. apply Hr.
Qed.

(** The exact average lies between the extreme velocities. *)
Lemma exact_terms lo hi p Zf : usual lo hi p Zf -> let Z := val Zf in let M2 := Rmin (depth_of p) Z in let T2 := travel 0 Z p in
  let T1 := T2 + (Z - M2) / val (last (map snd p) f0) in
  0 < lo /\ 0 < Z /\ 0 <= M2 <= Z /\ (M2 / hi <= T2 <= / lo * M2) /\ (Z / hi <= T1 <= / lo * Z) /\ 0 <= (Z - M2) / val (last (map snd p) f0) <= / lo * (Z - M2).
Proof.
  intros (Ne & Hr & (Hlo & Hlh) & Hhi & Hn & FZ & LZ & HS). cbv zeta. set (Z := val Zf) in *.
  assert (P : 0 < lo) by (eapply Rlt_le_trans; [apply bpow_gt_0|exact Hlo]). assert (PZ : 0 < Z) by (eapply Rlt_le_trans; [apply bpow_gt_0|exact LZ]).
  pose proof (depth_nonneg _ _ _ Hr) as D0. pose proof (travel_bounds Zf lo hi Hlo Hlh Hhi 0 p Hr ltac:(lra)) as TB. pose proof (travel_low Zf lo hi Hlo 0 p Hr ltac:(lra)) as TL. fold Z in TB, TL.
  rewrite Rplus_0_l in TB, TL. rewrite (Rmin_left 0 Z) in TB, TL by lra. rewrite Rminus_0_r in TB, TL.
  destruct (last_row lo hi p Ne Hr) as (Fv & Lv & Hv). set (v := val (last (map snd p) f0)) in *.
  assert (M : 0 <= Rmin (depth_of p) Z <= Z) by (split; [apply Rmin_glb; lra|apply Rmin_r]). set (m := Rmin (depth_of p) Z) in *.
  assert (I : 0 < / v <= / lo) by (split; [apply Rinv_0_lt_compat; lra|apply Rinv_le; lra]). assert (J : / hi <= / v) by (apply Rinv_le; lra).
  assert (T : 0 <= (Z - m) / v <= / lo * (Z - m)) by (unfold Rdiv; split; [apply Rmult_le_pos; lra|rewrite Rmult_comm; apply Rmult_le_compat_r; lra]).
  assert (T' : (Z - m) / hi <= (Z - m) / v) by (unfold Rdiv; apply Rmult_le_compat_l; lra).
  split; [lra|]. split; [lra|]. split; [lra|]. split; [split; lra|]. split; [|exact T]. unfold Rdiv in *. split; lra.
Qed.
Theorem C108_exact_between : forall lo hi p Z o, usual lo hi p Z -> (o = 1%nat \/ o = 2%nat) -> 0 < reach p (val Z) o -> lo <= exact_VsZ p (val Z) o <= hi.
Proof.
  intros lo hi p Z o H Ho R. destruct (exact_terms lo hi p Z H) as (P & PZ & M & T2 & T1 & _). assert (Ph : 0 < hi) by (destruct H as (_ & _ & (_ & X) & _); lra).
  assert (G : forall m t, 0 < m -> m / hi <= t <= / lo * m -> lo <= m / t <= hi).
  { intros m t Hm [A B]. assert (t0 : 0 < t) by (eapply Rlt_le_trans; [|exact A]; apply Rdiv_lt_0_compat; lra).
    split; apply Rmult_le_reg_r with t; try exact t0; replace (m / t * t) with m by (field; lra).
    - apply Rle_trans with (lo * (/ lo * m)); [apply Rmult_le_compat_l; lra|right; field; lra].
    - apply Rle_trans with (hi * (m / hi)); [right; field; lra|apply Rmult_le_compat_l; lra]. }
  destruct Ho as [-> | ->]; cbn [exact_VsZ reach] in *; apply G; auto.
Qed.

(** The average is the exact one up to a relative error of about 50 roundings per layer, times
    the spread: for all profiles and depths without extreme numbers. *)
Theorem C108_error : forall lo hi p Z o, usual lo hi p Z -> (o = 1%nat \/ o = 2%nat) -> 0 < reach p (val Z) o -> bound lo hi p (val Z) o <= / 100 ->
  exists x, VsZ_f p Z o = Ok x /\ fin x = true /\ Rabs (val x - exact_VsZ p (val Z) o) <= bound lo hi p (val Z) o * exact_VsZ p (val Z) o.
Proof.
  intros lo hi p Zf o H Ho R B. pose proof (C108_exact_between lo hi p Zf o H Ho R) as EB. destruct (exact_terms lo hi p Zf H) as (P & PZ & M & T2 & T1 & TX).
  destruct H as (Ne & Hr & (Hlo & Hlh) & Hhi & Hn & FZ & LZ & HS0). set (Z := val Zf) in *. set (S := depth_of p + Z) in *. set (N := INR (length p)).
  pose proof (depth_nonneg _ _ _ Hr) as D0. pose proof ueps_pos as U0. assert (N0 : 0 <= N) by apply pos_INR.
  assert (ZS : Z <= S) by (unfold S; lra). assert (LS : bpow radix2 (-300) <= S) by lra.
  assert (HS : S <= bpow radix2 301) by (eapply Rle_trans; [exact HS0|apply bpow_le; lia]).
  assert (Nu : (N + 10) * ueps <= / 10000).
  { assert (N <= 4294967296) by (unfold N; rewrite INR_IZR_INZ; apply IZR_le; lia). apply Rle_trans with (4294967306 * ueps); [apply Rmult_le_compat_r; lra|].
    unfold ueps. apply Rmult_le_reg_r with (2 ^ 53); [apply pow_lt; lra|]. rewrite Rmult_assoc, Rinv_l by (apply pow_nonzero; lra). simpl. lra. }
  assert (SP : 0 < S) by lra. assert (US0 : 0 < ueps * S) by (apply Rmult_lt_0_compat; assumption). set (W := / lo) in *. assert (WP : 0 < W) by (apply Rinv_0_lt_compat; exact P).
  set (U := ueps * (W * S)). assert (UE : W * (ueps * S) = U) by (unfold U; ring). assert (UP : 0 < U) by (rewrite <- UE; apply Rmult_lt_0_compat; assumption).
  assert (FE : Rabs (val f0 - 0) <= 2 * 0 * (ueps * S)) by (rewrite f0_val, Rminus_0_r, Rabs_R0; lra).
  destruct (fold_err Zf lo hi S Hlo Hlh Hhi PZ ZS LS HS p 0 f0 0 Hr f0_thick ltac:(lra) ltac:(unfold S; lra) ltac:(lra)) as [Tt Et]; [fold N; nra|exact FE|].
  assert (FU : Rabs (val f0 - 0) <= 15 * 0 * U) by (rewrite f0_val, Rminus_0_r, Rabs_R0; lra).
  destruct (loop Zf lo hi S Hlo Hlh Hhi FZ PZ ZS LS HS p 0 f0 f0 0 0 Hr f0_thick eq_refl ltac:(lra) ltac:(lra) ltac:(unfold S; lra) ltac:(lra) ltac:(fold N; lra) FE FU ltac:(rewrite f0_val; exact PZ)) as (Fc & Ec & _).
  fold N in Et, Ec. rewrite !Rplus_0_l in Et, Ec. fold W U Z in Ec. unfold over in Ec. fold Z in Ec. rewrite (Rmax_right (0 - Z) 0) in Ec by lra. rewrite Rmult_0_r, Rminus_0_r in Ec.
  set (t := fold_left fadd (map fst p) f0) in *. set (c := slow_f Zf f0 f0 p) in *. set (T := travel 0 Z p) in *. set (m := Rmin (depth_of p) Z) in *.
  pose proof Tt as [Ft Vt]. assert (NU : 0 <= N * U) by (apply Rmult_le_pos; lra). assert (NS : 0 <= N * (ueps * S)) by (apply Rmult_le_pos; lra).
  assert (K1 : 0 <= ueps * spread lo hi p Z o). { unfold spread. apply Rmult_le_pos; [lra|]. apply Rmult_le_pos; apply Rlt_le, Rdiv_lt_0_compat; try lra. }
  destruct Ho as [-> | ->]; cbn [reach exact_VsZ] in *.
  - (* down to Z *)
    destruct (last_row lo hi p Ne Hr) as (Fv & Hv). set (v := last (map snd p) f0) in *.
    assert (G : exists c', VsZ_f p Zf 1 = Ok (fdiv Zf c') /\ fin c' = true /\ Rabs (val c' - (T + (Z - m) / val v)) <= (42 * N + 73) * U).
    { unfold VsZ_f, pysum. fold t c v. destruct (flt t Zf) eqn:Lt.
      - exists (fadd c (fmul (fdiv f1 v) (fsub Zf t))). split; [destruct p; [contradiction|reflexivity]|]. apply flt_val in Lt; [|exact Ft|exact FZ]. fold Z in Lt.
        assert (B1 : Rabs (val Zf - val t) <= S) by (fold Z; rewrite Rabs_pos_eq; lra).
        destruct (sub_err lo hi S Hlo Hlh Hhi LS HS Zf t FZ Ft ltac:(lra)) as [Fw Ew]. set (w := fsub Zf t) in *. fold Z in Ew, B1.
        assert (Ew' : Rabs (val w - (Z - val t)) <= ueps * S) by (eapply Rle_trans; [exact Ew|]; apply Rmult_le_compat_l; lra).
        assert (Em : Rabs (val w - (Z - m)) <= (2 * N + 1) * (ueps * S)).
        { assert (Rabs (m - val t) <= 2 * N * (ueps * S)). { apply Rabs_le_inv in Et. unfold m, Rmin in *. destruct (Rle_dec (depth_of p) Z); apply Rabs_le; lra. }
          apply Rabs_le_inv in H. apply Rabs_le_inv in Ew'. apply Rabs_le. lra. }
        assert (US : ueps * S <= / 10000 * S) by (apply Rmult_le_compat_r; [lra|]; nra).
        assert (Bw : Rabs (val w) <= 3 * S) by (apply Rabs_le_inv in Ew'; apply Rabs_le_inv in B1; apply Rabs_le; lra).
        destruct (layer_time lo hi S Hlo Hlh Hhi LS HS v w (Z - m) Fv Hv Fw Bw) as [Fl El]. fold W U in El.
        assert (WM : W * Rabs (val w - (Z - m)) <= (2 * N + 1) * U) by (rewrite <- UE; replace ((2 * N + 1) * (W * (ueps * S))) with (W * ((2 * N + 1) * (ueps * S))) by ring; apply Rmult_le_compat_l; lra).
        assert (El' : Rabs (val (fmul (fdiv f1 v) w) - (Z - m) / val v) <= (2 * N + 11) * U) by (eapply Rle_trans; [exact El|]; lra).
        assert (CT : T + (Z - m) / val v <= W * S). { apply Rle_trans with (W * Z); [lra|]. apply Rmult_le_compat_l; lra. }
        assert (T0 : 0 <= T) by (apply Rle_trans with (m / hi); [apply Rmult_le_pos; [lra|apply Rlt_le, Rinv_0_lt_compat; lra]|apply T2]).
        destruct (add_time lo hi S Hlo Hlh Hhi LS HS (40 * N + 60) c (fmul (fdiv f1 v) w) T ((Z - m) / val v) (2 * N + 11) Fc Fl T0 ltac:(lra) CT ltac:(lra) ltac:(lra) ltac:(lra) Ec El') as [Fr Er].
        split; [exact Fr|]. fold W U in Er. eapply Rle_trans; [exact Er|]. right. ring.
      - exists c. split; [destruct p; [contradiction|reflexivity]|]. split; [exact Fc|].
        assert (Le : Z <= val t) by (apply Rnot_lt_le; intros Q; apply flt_val in Q; [congruence|exact Ft|exact FZ]).
        assert (Zm : Z - m <= 2 * N * (ueps * S)). { apply Rabs_le_inv in Et. unfold m, Rmin. destruct (Rle_dec (depth_of p) Z); lra. }
        assert (W * (Z - m) <= 2 * N * U) by (rewrite <- UE; replace (2 * N * (W * (ueps * S))) with (W * (2 * N * (ueps * S))) by ring; apply Rmult_le_compat_l; lra).
        apply Rabs_le_inv in Ec. apply Rabs_le. lra. }
    destruct G as (c' & E' & Fc' & Ec'). exists (fdiv Zf c'). split; [exact E'|].
    assert (Sm : (0 + (42 * N + 73) + 2) * ueps * (hi / lo * (S / Z)) <= / 100).
    { eapply Rle_trans; [|exact B]. unfold bound, spread. cbn [reach]. fold N S. rewrite !(Rmult_assoc _ ueps). unfold spread in K1. cbn [reach] in K1. fold S in K1. apply Rmult_le_compat_r; [exact K1|lra]. }
    destruct (quotient lo hi S Hlo Hlh Hhi LS Zf c' Z (T + (Z - m) / val v) 0 (42 * N + 73) FZ Fc' PZ ltac:(lra) ltac:(lra) (proj1 T1) (proj2 T1)) as [Fx Ex]; try assumption.
    { fold Z. rewrite Rminus_diag_eq, Rabs_R0 by reflexivity. lra. }
    split; [exact Fx|]. eapply Rle_trans; [exact Ex|]. apply Rmult_le_compat_r; [lra|]. unfold bound, spread. cbn [reach]. fold N S. rewrite !(Rmult_assoc _ ueps). unfold spread in K1. cbn [reach] in K1. fold S in K1. apply Rmult_le_compat_r; [exact K1|lra].
  - (* down to the end of the profile *)
    exists (fdiv (fmin t Zf) c). split; [reflexivity|].
    assert (A : fin (fmin t Zf) = true /\ Rabs (val (fmin t Zf) - m) <= 2 * N * (ueps * S)).
    { unfold fmin. replace (fnan t) with false by (clear - Ft; destruct t as [s|[|]| |s q e Wq]; reflexivity || discriminate Ft).
      replace (fnan Zf) with false by (clear - FZ; destruct Zf as [s|[|]| |s q e Wq]; reflexivity || discriminate FZ).
      apply Rabs_le_inv in Et. destruct (fle t Zf) eqn:Q.
      - apply fle_val in Q; [|exact Ft|exact FZ]. fold Z in Q. split; [exact Ft|]. unfold m, Rmin. destruct (Rle_dec (depth_of p) Z); apply Rabs_le; lra.
      - assert (Z < val t) by (apply Rnot_le_lt; intros X; apply fle_val in X; [congruence|exact Ft|exact FZ]). split; [exact FZ|]. fold Z. unfold m, Rmin. destruct (Rle_dec (depth_of p) Z); apply Rabs_le; lra. }
    destruct A as [FA EA].
    assert (Sm : (2 * N + (40 * N + 60) + 2) * ueps * (hi / lo * (S / m)) <= / 100).
    { eapply Rle_trans; [|exact B]. unfold bound, spread. cbn [reach]. fold N S m. rewrite !(Rmult_assoc _ ueps). unfold spread in K1. cbn [reach] in K1. fold S m in K1. apply Rmult_le_compat_r; [exact K1|lra]. }
    destruct (quotient lo hi S Hlo Hlh Hhi LS (fmin t Zf) c m T (2 * N) (40 * N + 60) FA Fc R ltac:(lra) ltac:(lra) (proj1 T2) (proj2 T2) EA Ec Sm ltac:(lra)) as [Fx Ex].
    split; [exact Fx|]. eapply Rle_trans; [exact Ex|]. apply Rmult_le_compat_r; [lra|]. unfold bound, spread. cbn [reach]. fold N S m. rewrite !(Rmult_assoc _ ueps). unfold spread in K1. cbn [reach] in K1. fold S m in K1. apply Rmult_le_compat_r; [exact K1|lra].
Qed.
(** So it lies between the extreme velocities up to that error; and it is the velocity of a
    uniform profile up to that error, ... *)
Theorem C108_between : forall lo hi p Z o x, usual lo hi p Z -> (o = 1%nat \/ o = 2%nat) -> 0 < reach p (val Z) o -> bound lo hi p (val Z) o <= / 100 ->
  VsZ_f p Z o = Ok x -> lo * (1 - bound lo hi p (val Z) o) <= val x <= hi * (1 + bound lo hi p (val Z) o).
Proof.
  intros lo hi p Z o x H Ho R B E. destruct (C108_error lo hi p Z o H Ho R B) as (y & E' & _ & Er). rewrite E in E'.
  assert (x = y) by exact (f_equal (fun r => match r with Ok z => z | Err _ => f0 end) E'). subst y. pose proof (C108_exact_between lo hi p Z o H Ho R) as EB.
  destruct (exact_terms lo hi p Z H) as (P & _). set (b := bound lo hi p (val Z) o) in *. set (e := exact_VsZ p (val Z) o) in *. clearbody b e.
  assert (b0 : 0 <= b). { apply Rnot_lt_le. intros Q. pose proof (Rabs_pos (val x - e)). assert (b * e < 0) by nra. lra. }
  apply Rabs_le_inv in Er. split; nra.
Qed.
Theorem C108_uniform : forall v p Z o, usual v v p Z -> (o = 1%nat \/ o = 2%nat) -> 0 < reach p (val Z) o -> bound v v p (val Z) o <= / 100 ->
  exists x, VsZ_f p Z o = Ok x /\ fin x = true /\ Rabs (val x - v) <= bound v v p (val Z) o * v.
Proof.
  intros v p Z o H Ho R B. destruct (C108_error v v p Z o H Ho R B) as (x & E & F & Er). exists x. split; [exact E|]. split; [exact F|].
  pose proof (C108_exact_between v v p Z o H Ho R) as EB. replace (exact_VsZ p (val Z) o) with v in Er by lra. exact Er.
Qed.
(** ... but not exactly: three layers of 10 m and 200 m/s. *)
Definition v200 : f64 := lit 200 0.
Definition three_layers : list frow := [(lit 10 0, v200); (lit 10 0, v200); (lit 10 0, v200); (f0, v200)].
Definition got1 (r : res f64) : f64 := match r with Ok x => x | Err _ => f0 end.
Theorem C108_uniform_refuted : exists p x, Forall (fun r => snd r = v200) p /\ Vs30_f p 1 = Ok x /\ flt x v200 = true.
Proof.
  exists three_layers, (got1 (Vs30_f three_layers 1)). split; [repeat (apply Forall_cons; [reflexivity|]); apply Forall_nil|]. split; [|vm_compute; reflexivity].
  unfold Vs30_f, VsZ_f. destruct (flt (pysum (map fst three_layers)) (lit 30 0)); reflexivity.
Qed.

(** What lies below the depth has no influence at all, not even on the rounding. *)
Lemma slow_stop Zf p q : forall dep cum, fle Zf dep = false -> fle Zf (fold_left fadd (map fst p) dep) = true -> slow_f Zf dep cum (p ++ q) = slow_f Zf dep cum p.
Proof.
  induction p as [|[h v] p IH]; intros dep cum A B; cbn [map fst fold_left app slow_f] in *; [congruence|].
  destruct (fle Zf (fadd dep h)) eqn:Q; [reflexivity|]. apply IH; assumption.
Qed.
Lemma fold_mono l : forall d, fle f0 d = true -> Forall (fun t => fle f0 t = true) l -> fle f0 (fold_left fadd l d) = true /\ fle d (fold_left fadd l d) = true.
Proof.
  induction l as [|h l IH]; intros d D H; cbn [fold_left]; [split; [exact D|apply fle_refl0, D]|]. inversion H as [|? ? Hh Hl]; subst.
  destruct (fadd_ge0 d h D Hh) as [A B]. destruct (IH _ A Hl) as [X Y]. split; [exact X|]. eapply fle_trans0; [exact D|exact A|exact X|exact B|exact Y].
Qed.
Lemma fmin_reached Zf t : fin Zf = true -> 0 < val Zf -> fle f0 t = true -> fle Zf t = true -> fmin t Zf = Zf.
Proof.
  intros F P T L. unfold fmin. rewrite (ge0_not_nan t T). replace (fnan Zf) with false by (clear - F; destruct Zf as [s|[|]| |s q e Wq]; reflexivity || discriminate F).
  destruct (fle t Zf) eqn:Q; [|reflexivity]. destruct (ge0_cases t T) as [[Ft Vt]| ->].
  - apply fle_val in L; [|exact F|exact Ft]. apply fle_val in Q; [|exact Ft|exact F]. apply (B2R_inj 53 1024).
    + destruct t as [s|[|]| |s m e Wt]; try discriminate Ft; [|reflexivity]. change (val (B754_zero s)) with 0 in L. lra.
    + destruct Zf as [s|[|]| |s m e Wt]; try discriminate F; [|reflexivity]. change (val (B754_zero s)) with 0 in P. lra.
    + change (val t = val Zf). lra.
  - exfalso. clear - F Q. destruct Zf as [s|[|]| |s m e Wt]; discriminate.
Qed.
Theorem C108_below : forall p q Z o, Forall (fun r => fle f0 (fst r) = true) (p ++ q) -> fin Z = true -> 0 < val Z -> fle Z (pysum (map fst p)) = true ->
  VsZ_f (p ++ q) Z o = VsZ_f p Z o.
Proof.
  intros p q Z o H F P L. apply Forall_app in H as [Hp Hq]. unfold pysum in *. pose proof (proj2 (Forall_map fst (fun t => fle f0 t = true) p) Hp) as Tp. pose proof (proj2 (Forall_map fst (fun t => fle f0 t = true) q) Hq) as Tq.
  assert (Z0 : fle f0 Z = true) by (apply fle_val; [reflexivity|exact F|rewrite f0_val; lra]).
  destruct (fold_mono _ f0 eq_refl Tp) as [A _]. set (t := fold_left fadd (map fst p) f0) in *. destruct (fold_mono _ t A Tq) as [A' B'].
  assert (Zf0 : fle Z f0 = false). { destruct (fle Z f0) eqn:Q; [|reflexivity]. apply fle_val in Q; [|exact F|reflexivity]. rewrite f0_val in Q. lra. }
  assert (Ne : p <> []). { intros ->. unfold t in L. cbn in L. congruence. }
  assert (L' : fle Z (fold_left fadd (map fst q) t) = true) by (eapply fle_trans0; [exact Z0|exact A|exact A'|exact L|exact B']).
  unfold VsZ_f, pysum. rewrite map_app, fold_left_app. fold t. rewrite slow_stop by assumption.
  rewrite (flt_not_fle Z t), L, (flt_not_fle Z _ Z0 A'), L' by assumption. rewrite !fmin_reached by assumption. cbn [negb].
  destruct p as [|a p]; [contradiction|]. reflexivity.
Qed.
Theorem C108_bad_option : forall p Z o, o <> 1%nat -> o <> 2%nat -> VsZ_f p Z o = Err UnboundLocalError.
Proof. intros p Z [|[|[|o]]] A B; try contradiction; reflexivity. Qed.

(** 0.625 m of 150 m/s and 2.5 m of 300 m/s over rock of 800 m/s. *)
Example C108_instance : usual 150 800 some_profile (lit 30 0) /\ reach some_profile (val (lit 30 0)) 1 = 30 /\ reach some_profile (val (lit 30 0)) 2 = 25 / 8 /\
  bound 150 800 some_profile (val (lit 30 0)) 1 <= / 100 /\ bound 150 800 some_profile (val (lit 30 0)) 2 <= / 100 /\
  fle (lit 2 0) (pysum (map fst some_profile)) = true.
Proof.
  assert (V0 : val (lit 5 (-3)) = 5 / 8) by (rewrite (proj2 (lit_ok 5 (-3) ltac:(cbn; lia) ltac:(lia))); change (bpow radix2 (-3)) with (/ 8); lra).
  assert (V1 : val (lit 20 (-3)) = 5 / 2) by (rewrite (proj2 (lit_ok 20 (-3) ltac:(cbn; lia) ltac:(lia))); change (bpow radix2 (-3)) with (/ 8); lra).
  assert (I : forall k, (0 <= k <= 1000)%Z -> fin (lit k 0) = true /\ val (lit k 0) = IZR k).
  { intros k Hk. destruct (lit_ok k 0 ltac:(lia) ltac:(lia)) as [F V]. split; [exact F|]. rewrite V. change (bpow radix2 0) with 1. ring. }
  destruct (I 30%Z ltac:(lia)) as [F30 V30]. assert (D : depth_of some_profile = 25 / 8). { unfold depth_of, some_profile. cbn [map fst total]. rewrite V0, V1, f0_val. lra. }
  assert (U : ueps <= / 1000000000) by (unfold ueps; apply Rinv_le; [lra|]; simpl; lra). pose proof ueps_pos as U0.
  assert (B1 : bpow radix2 (-300) <= 1) by (change 1 with (bpow radix2 0); apply bpow_le; lia).
  assert (B2 : 1024 <= bpow radix2 300) by (change 1024 with (bpow radix2 10); apply bpow_le; lia).
  split; [|split; [exact V30|split; [|split; [|split; [|vm_compute; reflexivity]]]]].
  - unfold usual. split; [discriminate|]. split.
    + pose proof (proj1 some_profile_ok) as T. change (map fst some_profile) with some_thk in T. unfold some_thk in T. inversion T as [|? ? T1 T']; subst. inversion T' as [|? ? T2 T'']; subst. inversion T'' as [|? ? T3 _]; subst.
      destruct (I 150%Z ltac:(lia)) as [F1 E1], (I 300%Z ltac:(lia)) as [F2 E2], (I 800%Z ltac:(lia)) as [F3 E3].
      unfold rows_ok, some_profile. apply Forall_cons; [|apply Forall_cons; [|apply Forall_cons; [|apply Forall_nil]]]; cbn [fst snd]; (split; [assumption|]; split; [assumption|]); rewrite ?E1, ?E2, ?E3; lra.
    + split; [lra|]. split; [lra|]. split; [cbn; lia|]. split; [exact F30|]. rewrite D, V30. split; lra.
  - cbn [reach]. rewrite D, V30. apply Rmin_left. lra.
  - unfold bound, spread. cbn [reach]. rewrite D, V30. unfold some_profile. cbn [length]. change (INR 3) with (1 + 1 + 1). nra.
  - unfold bound, spread. cbn [reach]. rewrite D, V30, Rmin_left by lra. unfold some_profile. cbn [length]. change (INR 3) with (1 + 1 + 1). nra.
Qed.
