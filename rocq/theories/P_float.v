(** Lemmas about the double precision operations. *)
From Coq Require Import Reals List Bool ZArith Lia Lra Psatz Permutation.
From Flocq Require Import Core IEEE754.BinarySingleNaN Plus_error Relative Sterbenz.
From Verif Require Import Base M_float.
Import ListNotations.
Open Scope R_scope.

#[export] Existing Instance prec_ok.
#[export] Existing Instance emax_ok.
Notation fexp64 := (FLT_exp (-1074) 53).
(** Rounding of real numbers to double precision (without the upper limit). *)
Definition rnd (x : R) : R := round radix2 fexp64 ZnearestE x.
Definition val (x : f64) : R := @B2R 53 1024 x.
Definition ueps : R := / 2 ^ 53.
Definition dbl (r : R) : Prop := generic_format radix2 fexp64 r.

Lemma ueps_val : u_ro radix2 53 = ueps.
Proof. unfold u_ro, ueps. change (-53 + 1)%Z with (-52)%Z. rewrite bpow_powerRZ. unfold powerRZ. cbn [radix_val radix2 IZR]. simpl. lra. Qed.
Lemma ueps_pos : 0 < ueps. Proof. unfold ueps. apply Rinv_0_lt_compat, pow_lt. lra. Qed.
Lemma ueps_small : ueps <= / 4. Proof. unfold ueps. apply Rinv_le; [lra|]. simpl. lra. Qed.

Lemma val_dbl x : dbl (val x). Proof. apply (generic_format_B2R 53 1024). Qed.
Lemma rnd_dbl x : dbl (rnd x). Proof. apply generic_format_round; typeclasses eauto. Qed.
Lemma rnd_id x : dbl x -> rnd x = x. Proof. intros H. apply round_generic; [typeclasses eauto|exact H]. Qed.
Lemma rnd_mono x y : x <= y -> rnd x <= rnd y. Proof. intros H. apply round_le; [typeclasses eauto|typeclasses eauto|exact H]. Qed.
Lemma dbl_0 : dbl 0. Proof. apply generic_format_0. Qed.
Lemma rnd_0 : rnd 0 = 0. Proof. apply rnd_id, dbl_0. Qed.
Lemma rnd_nonneg x : 0 <= x -> 0 <= rnd x. Proof. intros H. rewrite <- rnd_0. apply rnd_mono, H. Qed.
Lemma rnd_opp x : rnd (- x) = - rnd x. Proof. apply round_NE_opp. Qed.
Lemma rnd_abs x : rnd (Rabs x) = Rabs (rnd x). Proof. apply round_NE_abs. typeclasses eauto. Qed.
Lemma rnd_between x lo hi : dbl lo -> dbl hi -> lo <= x <= hi -> lo <= rnd x <= hi.
Proof. intros L H B. rewrite <- (rnd_id lo L), <- (rnd_id hi H). split; apply rnd_mono; lra. Qed.

(** The sum of two doubles has a relative error of at most ueps, also below the normal range. *)
Lemma rnd_plus x y : dbl x -> dbl y -> exists e, Rabs e <= ueps / (1 + ueps) /\ rnd (x + y) = (x + y) * (1 + e).
Proof.
  intros Hx Hy. destruct (FLT_plus_error_N_ex radix2 (-1074) 53 (fun z => negb (Z.even z)) x y Hx Hy) as (e & He & E).
  rewrite ueps_val in He. exists e. split; [exact He|exact E].
Qed.
Lemma ueps_ratio : ueps / (1 + ueps) <= ueps.
Proof. pose proof ueps_pos. apply Rmult_le_reg_r with (1 + ueps); [lra|]. unfold Rdiv. rewrite Rmult_assoc, Rinv_l by lra. nra. Qed.
Lemma rnd_plus' x y : dbl x -> dbl y -> exists e, Rabs e <= ueps /\ rnd (x + y) = (x + y) * (1 + e).
Proof. intros Hx Hy. destruct (rnd_plus x y Hx Hy) as (e & He & E). exists e. split; [pose proof ueps_ratio; lra|exact E]. Qed.
(** Any number in the normal range. *)
Lemma rnd_rel x : bpow radix2 (-1022) <= Rabs x -> exists e, Rabs e <= ueps /\ rnd x = x * (1 + e).
Proof.
  intros H. destruct (relative_error_N_FLT_ex radix2 (-1074) 53 eq_refl (fun z => negb (Z.even z)) x H) as (e & He & E).
  exists e. split; [|exact E]. rewrite <- ueps_val. exact He.
Qed.

(** The operations on finite numbers with a finite result. *)
Lemma overflow_not_fin (x : f64) s : B2SF x = binary_overflow 53 1024 mode_NE s -> fin x = false.
Proof. intros H. unfold fin. destruct x as [s'|s'| |s' m e B]; try reflexivity; cbn in H; discriminate. Qed.
Lemma fadd_val x y : fin x = true -> fin y = true -> fin (fadd x y) = true -> val (fadd x y) = rnd (val x + val y).
Proof.
  intros Fx Fy F. pose proof (Bplus_correct 53 1024 _ _ mode_NE x y Fx Fy) as H. destruct (Rlt_bool _ _).
  - apply H.
  - destruct H as [H _]. apply overflow_not_fin in H. unfold fadd in F. congruence.
Qed.
Lemma fsub_val x y : fin x = true -> fin y = true -> fin (fsub x y) = true -> val (fsub x y) = rnd (val x - val y).
Proof.
  intros Fx Fy F. pose proof (Bminus_correct 53 1024 _ _ mode_NE x y Fx Fy) as H. destruct (Rlt_bool _ _).
  - apply H.
  - destruct H as [H _]. apply overflow_not_fin in H. unfold fsub in F. congruence.
Qed.
Lemma fmul_val x y : fin (fmul x y) = true -> val (fmul x y) = rnd (val x * val y).
Proof.
  intros F. pose proof (Bmult_correct 53 1024 _ _ mode_NE x y) as H. destruct (Rlt_bool _ _).
  - apply H.
  - apply overflow_not_fin in H. unfold fmul in F. congruence.
Qed.
Lemma fdiv_val x y : val y <> 0 -> fin (fdiv x y) = true -> val (fdiv x y) = rnd (val x / val y).
Proof.
  intros Hy F. pose proof (Bdiv_correct 53 1024 _ _ mode_NE x y Hy) as H. destruct (Rlt_bool _ _).
  - apply H.
  - apply overflow_not_fin in H. unfold fdiv in F. congruence.
Qed.
(** When they are finite. *)
Definition top64 : R := bpow radix2 1024.
Lemma fadd_fin x y : fin x = true -> fin y = true -> Rabs (rnd (val x + val y)) < top64 -> fin (fadd x y) = true /\ val (fadd x y) = rnd (val x + val y).
Proof.
  intros Fx Fy L. pose proof (Bplus_correct 53 1024 _ _ mode_NE x y Fx Fy) as H. rewrite Rlt_bool_true in H by exact L.
  split; apply H.
Qed.
Lemma fsub_fin x y : fin x = true -> fin y = true -> Rabs (rnd (val x - val y)) < top64 -> fin (fsub x y) = true /\ val (fsub x y) = rnd (val x - val y).
Proof.
  intros Fx Fy L. pose proof (Bminus_correct 53 1024 _ _ mode_NE x y Fx Fy) as H. rewrite Rlt_bool_true in H by exact L.
  split; apply H.
Qed.
Lemma fmul_fin x y : fin x = true -> fin y = true -> Rabs (rnd (val x * val y)) < top64 -> fin (fmul x y) = true /\ val (fmul x y) = rnd (val x * val y).
Proof.
  intros Fx Fy L. pose proof (Bmult_correct 53 1024 _ _ mode_NE x y) as H. rewrite Rlt_bool_true in H by exact L.
  split; [|apply H]. unfold fin, fmul. destruct H as (_ & -> & _). unfold fin in Fx, Fy. rewrite Fx, Fy. reflexivity.
Qed.
Lemma fdiv_fin x y : fin x = true -> val y <> 0 -> Rabs (rnd (val x / val y)) < top64 -> fin (fdiv x y) = true /\ val (fdiv x y) = rnd (val x / val y).
Proof.
  intros Fx Hy L. pose proof (Bdiv_correct 53 1024 _ _ mode_NE x y Hy) as H. rewrite Rlt_bool_true in H by exact L.
  split; [|apply H]. unfold fin, fdiv. destruct H as (_ & -> & _). exact Fx.
Qed.
Lemma val_lt_top x : Rabs (val x) < top64. Proof. apply (abs_B2R_lt_emax 53 1024). Qed.
(** A finite sum has finite terms. *)
Lemma fadd_fin_inv x y : fin (fadd x y) = true -> fin x = true /\ fin y = true.
Proof. unfold fin, fadd. destruct x as [s|[|]| |s m e B], y as [s'|[|]| |s' m' e' B']; cbn; intros H; try discriminate H; split; reflexivity. Qed.
Lemma fmul_fin_inv x y : fin (fmul x y) = true -> fin x = true /\ fin y = true.
Proof. unfold fin, fmul. destruct x as [s|[|]| |s m e B], y as [s'|[|]| |s' m' e' B']; cbn; intros H; try discriminate H; split; reflexivity. Qed.

(** Comparisons. *)
Lemma fle_val x y : fin x = true -> fin y = true -> (fle x y = true <-> val x <= val y).
Proof. intros Fx Fy. unfold fle. rewrite (Bleb_correct 53 1024 x y Fx Fy). unfold val. destruct (Rle_bool_spec (B2R x) (B2R y)); split; intros; try reflexivity; try lra; discriminate. Qed.
Lemma flt_val x y : fin x = true -> fin y = true -> (flt x y = true <-> val x < val y).
Proof. intros Fx Fy. unfold flt. rewrite (Bltb_correct 53 1024 x y Fx Fy). unfold val. destruct (Rlt_bool_spec (B2R x) (B2R y)); split; intros; try reflexivity; try lra; discriminate. Qed.
Lemma feq_val x y : fin x = true -> fin y = true -> (feq x y = true <-> val x = val y).
Proof. intros Fx Fy. unfold feq. rewrite (Beqb_correct 53 1024 x y Fx Fy). unfold val. destruct (Req_bool_spec (B2R x) (B2R y)); split; intros; try reflexivity; try lra; discriminate. Qed.
Lemma f0_val : val f0 = 0. Proof. reflexivity. Qed.

(** Numbers that are at least zero (so not NaN); plus infinity is one of them. *)
Lemma ge0_cases x : fle f0 x = true -> (fin x = true /\ 0 <= val x) \/ x = B754_infinity false.
Proof.
  destruct x as [s|[|]| |s m e B]; intros H; try discriminate H.
  - left. split; [reflexivity|]. cbn. lra.
  - right. reflexivity.
  - left. split; [reflexivity|]. rewrite <- f0_val. apply fle_val; [reflexivity|reflexivity|exact H].
Qed.
Lemma fle_inf x : fnan x = false -> fle x (B754_infinity false) = true.
Proof. destruct x as [s|[|]| |s m e B]; intros H; try reflexivity; discriminate H. Qed.
Lemma fadd_ge0 x y : fle f0 x = true -> fle f0 y = true -> fle f0 (fadd x y) = true /\ fle x (fadd x y) = true.
Proof.
  intros Hx Hy. destruct (ge0_cases x Hx) as [[Fx Vx]| ->], (ge0_cases y Hy) as [[Fy Vy]| ->].
  - destruct (Rlt_dec (Rabs (rnd (val x + val y))) top64) as [L|L].
    + destruct (fadd_fin x y Fx Fy L) as [F V]. split; (apply fle_val; [reflexivity || exact Fx|exact F|]); rewrite V.
      * rewrite f0_val. apply rnd_nonneg. lra.
      * rewrite <- (rnd_id (val x)) at 1 by apply val_dbl. apply rnd_mono. lra.
    + pose proof (Bplus_correct 53 1024 _ _ mode_NE x y Fx Fy) as H. rewrite Rlt_bool_false in H by (apply Rnot_lt_le, L).
      destruct H as [H E]. assert (Bs : Bsign x = false).
      { destruct x as [s|[|]| |s m e B]; try discriminate Fx.
        - destruct y as [s'|[|]| |s' m' e' B']; try discriminate Fy.
          + exfalso. apply L. change (val (B754_zero s)) with 0. change (val (B754_zero s')) with 0. rewrite Rplus_0_r, rnd_0, Rabs_R0. apply bpow_gt_0.
          + cbn in E |- *. destruct s'; [|exact E]. exfalso. cbn in Vy. apply (Rlt_not_le _ _ (F2R_lt_0 radix2 (Float radix2 (Zneg m') e') eq_refl) Vy).
        - cbn in E |- *. destruct s; [|reflexivity]. exfalso. cbn in Vx. apply (Rlt_not_le _ _ (F2R_lt_0 radix2 (Float radix2 (Zneg m) e) eq_refl) Vx). }
      rewrite Bs in H. assert (I : fadd x y = B754_infinity false). { apply (B2SF_inj 53 1024). exact H. }
      rewrite I. split; [reflexivity|apply fle_inf]. destruct x as [s|[|]| |s m e B]; try discriminate Fx; reflexivity.
  - assert (I : fadd x (B754_infinity false) = B754_infinity false) by (destruct x as [s|[|]| |s m e B]; try discriminate Fx; reflexivity).
    rewrite I. split; [reflexivity|apply fle_inf]. destruct x as [s|[|]| |s m e B]; try discriminate Fx; reflexivity.
  - assert (I : fadd (B754_infinity false) y = B754_infinity false) by (destruct y as [s|[|]| |s m e B]; try discriminate Fy; reflexivity).
    rewrite I. split; reflexivity.
  - split; reflexivity.
Qed.

(** Literals in range are exact. *)
Lemma lit_ok m e : (Z.abs m <= 2 ^ 53)%Z -> (-1074 <= e <= 970)%Z -> fin (lit m e) = true /\ val (lit m e) = IZR m * bpow radix2 e.
Proof.
  intros Hm He. pose proof (binary_normalize_correct 53 1024 _ _ mode_NE m e false) as H. cbv zeta in H.
  assert (B : Rabs (F2R (Float radix2 m e)) <= bpow radix2 1023).
  { unfold F2R. cbn [Fnum Fexp]. rewrite Rabs_mult, <- abs_IZR, (Rabs_pos_eq (bpow radix2 e)) by apply bpow_ge_0.
    apply Rle_trans with (bpow radix2 53 * bpow radix2 e); [apply Rmult_le_compat_r; [apply bpow_ge_0|]; apply (IZR_le (Z.abs m) (2 ^ 53)), Hm|].
    rewrite <- bpow_plus. apply bpow_le. lia. }
  assert (D : dbl (F2R (Float radix2 m e))).
  { destruct (Z.eq_dec (Z.abs m) (2 ^ 53)) as [Q|Q].
    - assert (G : dbl (bpow radix2 (53 + e))) by (apply generic_format_bpow; unfold FLT_exp; lia). rewrite bpow_plus in G.
      unfold F2R. cbn [Fnum Fexp]. destruct (Z.abs_eq_or_opp m) as [A|A]; rewrite A in Q.
      + rewrite Q. exact G.
      + replace m with (- 2 ^ 53)%Z by lia. rewrite opp_IZR, Ropp_mult_distr_l_reverse. apply generic_format_opp. exact G.
    - apply generic_format_FLT. exists (Float radix2 m e); [reflexivity| |cbn; lia]. cbn [Fnum]. change (radix2 ^ 53)%Z with (2 ^ 53)%Z. lia. }
  change (round radix2 (SpecFloat.fexp 53 1024) (round_mode mode_NE) (F2R (Float radix2 m e))) with (rnd (F2R (Float radix2 m e))) in H.
  rewrite (rnd_id _ D) in H. rewrite Rlt_bool_true in H by (eapply Rle_lt_trans; [exact B|apply bpow_lt; lia]). split; apply H.
Qed.
#[global] Opaque fadd fsub fmul fdiv fabs fceil lit.
