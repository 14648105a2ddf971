(** C118: motions saved and read back. *)
From Coq Require Import ZArith List Bool String Ascii Reals Lia Lra.
From Flocq Require Import Core Relative IEEE754.BinarySingleNaN.
From Verif Require Import Base M_float P_float M_text P_text Prop_text M_textfile.
Import ListNotations.
Open Scope string_scope.
Open Scope list_scope.
Open Scope R_scope.

Definition finite_rows (rows : list (f64 * f64)) : Prop := Forall (fun r => fin (fst r) = true /\ fin (snd r) = true) rows.
(** Neither so small that digits are lost nor so large. *)
Definition ordinary (x : f64) : Prop := val x = 0 \/ bpow radix2 (-1000) <= Rabs (val x).

(** What is read for a number that was written with [p] digits. *)
Definition back (p : nat) (r : R) : R := rnd (nearest_digits p r).
Lemma back_read p x : (1 <= p)%nat -> fin x = true -> read_double (fmt_g p x) = Some (back p (val x)).
Proof. intros Hp F. unfold read_double. rewrite C117_general by assumption. reflexivity. Qed.
Lemma back_mono p a b : (1 <= p)%nat -> a <= b -> back p a <= back p b.
Proof. intros Hp H. assert (Pg : Prec_gt_0 (Z.of_nat p)) by (unfold Prec_gt_0; lia). apply rnd_mono, round_le; try typeclasses eauto. exact H. Qed.
Lemma back_0 p : back p 0 = 0. Proof. unfold back. rewrite round_0 by typeclasses eauto. apply rnd_0. Qed.
Lemma back_abs p a : (1 <= p)%nat -> Rabs (back p a) = back p (Rabs a).
Proof. intros Hp. assert (Pg : Prec_gt_0 (Z.of_nat p)) by (unfold Prec_gt_0; lia). unfold back. rewrite <- rnd_abs, round_NE_abs by typeclasses eauto. reflexivity. Qed.
Lemma digits_err p r : (1 <= p)%nat -> Rabs (nearest_digits p r - r) <= / 2 * tenpow (1 - Z.of_nat p) * Rabs r.
Proof.
  intros Hp. assert (Pg : Prec_gt_0 (Z.of_nat p)) by (unfold Prec_gt_0; lia).
  pose proof (relative_error_N_FLX radix10 (Z.of_nat p) Pg (fun t => negb (Z.even t)) r) as E. replace (- Z.of_nat p + 1)%Z with (1 - Z.of_nat p)%Z in E by lia. exact E.
Qed.
Lemma back_err p x : (1 <= p)%nat -> ordinary x -> Rabs (back p (val x) - val x) <= (/ 2 * tenpow (1 - Z.of_nat p) + 2 * ueps) * Rabs (val x).
Proof.
  intros Hp O. pose proof (digits_err p (val x) Hp) as D. set (v := nearest_digits p (val x)) in *. unfold back. fold v. destruct O as [Z0|B].
  - assert (V : v = 0) by (unfold v; rewrite Z0; apply round_0; typeclasses eauto). rewrite V, Z0, rnd_0, Rabs_R0, Rmult_0_r, Rminus_0_r, Rabs_R0. lra.
  - assert (T1 : tenpow (1 - Z.of_nat p) <= 1) by (change 1 with (tenpow 0); apply bpow_le; lia). pose proof (bpow_ge_0 radix10 (1 - Z.of_nat p)). pose proof (Rabs_pos (val x)) as P.
    assert (D' : Rabs (v - val x) <= / 2 * Rabs (val x)) by (eapply Rle_trans; [exact D|]; apply Rmult_le_compat_r; lra).
    pose proof (Rabs_triang_inv (val x) (val x - v)) as T. replace (val x - (val x - v)) with v in T by ring. rewrite (Rabs_minus_sym (val x) v) in T.
    pose proof (Rabs_triang (v - val x) (val x)) as T'. replace (v - val x + val x) with v in T' by ring.
    assert (B2 : 2 * bpow radix2 (-1022) <= bpow radix2 (-1000)) by (change 2 with (bpow radix2 1); rewrite <- bpow_plus; apply bpow_le; lia). pose proof (bpow_gt_0 radix2 (-1022)).
    pose proof (rnd_near v ltac:(lra)) as N. replace (rnd v - val x) with ((rnd v - v) + (v - val x)) by ring. pose proof (Rabs_triang (rnd v - v) (v - val x)) as T2. pose proof ueps_pos.
    assert (N' : Rabs (rnd v - v) <= 2 * ueps * Rabs (val x)).
    { eapply Rle_trans; [exact N|]. rewrite (Rmult_comm 2), Rmult_assoc. apply Rmult_le_compat_l; lra. }
    lra.
Qed.

Definition back_rows (p q : nat) (rows : list (f64 * f64)) : list (R * R) := map (fun r => (back p (val (fst r)), back q (val (snd r)))) rows.
Lemma reads_back p q rows : (1 <= p)%nat -> (1 <= q)%nat -> finite_rows rows -> read_rows (save_rows p q rows) = Some (back_rows p q rows).
Proof.
  intros Hp Hq Fr. induction Fr as [|[t a] rows [Ft Fa] Fr IH]; [reflexivity|]. unfold back_rows in *. cbn [save_rows map read_rows fst snd] in *. unfold save_rows in IH. cbn [fst snd]. rewrite !back_read by assumption. rewrite IH. reflexivity.
Qed.

(** A saved motion can be read; every sample is off by half a unit of the last digit printed, and times keep their order. *)
Theorem C118_reads : forall p q rows, (1 <= p)%nat -> (1 <= q)%nat -> finite_rows rows ->
  exists got, read_rows (save_rows p q rows) = Some got /\ List.length got = List.length rows /\
    (forall i, (i < List.length rows)%nat -> ordinary (fst (nth i rows (f0, f0))) -> ordinary (snd (nth i rows (f0, f0))) ->
       Rabs (fst (nth i got (0, 0)) - val (fst (nth i rows (f0, f0)))) <= (/ 2 * tenpow (1 - Z.of_nat p) + 2 * ueps) * Rabs (val (fst (nth i rows (f0, f0)))) /\
       Rabs (snd (nth i got (0, 0)) - val (snd (nth i rows (f0, f0)))) <= (/ 2 * tenpow (1 - Z.of_nat q) + 2 * ueps) * Rabs (val (snd (nth i rows (f0, f0))))) /\
    (forall i j, (i < List.length rows)%nat -> (j < List.length rows)%nat -> val (fst (nth i rows (f0, f0))) <= val (fst (nth j rows (f0, f0))) -> fst (nth i got (0, 0)) <= fst (nth j got (0, 0))).
Proof.
  intros p q rows Hp Hq Fr.
  pose proof (reads_back p q rows Hp Hq Fr) as E. unfold back_rows in E.
  exists (map (fun r => (back p (val (fst r)), back q (val (snd r)))) rows). split; [exact E|]. split; [apply map_length|].
  assert (N : forall i, (i < List.length rows)%nat -> nth i (map (fun r => (back p (val (fst r)), back q (val (snd r)))) rows) (0, 0) = (back p (val (fst (nth i rows (f0, f0)))), back q (val (snd (nth i rows (f0, f0)))))).
  { intros i Hi. rewrite (nth_indep _ _ ((fun r => (back p (val (fst r)), back q (val (snd r)))) (f0, f0))) by (rewrite map_length; exact Hi). rewrite (map_nth (fun r => (back p (val (fst r)), back q (val (snd r))))). reflexivity. }
  split.
  - intros i Hi Ot Oa. rewrite (N i Hi). cbn [fst snd]. split; apply back_err; assumption.
  - intros i j Hi Hj L. rewrite (N i Hi), (N j Hj). cbn [fst]. apply back_mono; assumption.
Qed.

(** The peak of the motion read is what is read for the peak alone. *)
Theorem C118_peak : forall p q rows got m, (1 <= p)%nat -> (1 <= q)%nat -> finite_rows rows -> read_rows (save_rows p q rows) = Some got ->
  fin m = true -> val m = peak_R (map (fun r => val (snd r)) rows) -> Some (peak_R (map snd got)) = read_double (fmt_g q m).
Proof.
  intros p q rows got m Hp Hq Fr E Fm Vm. rewrite back_read by assumption. f_equal. rewrite Vm. clear m Fm Vm. revert got E.
  induction Fr as [|[t a] rows [Ft Fa] Fr IH]; intros got E.
  - injection E as <-. cbn. symmetry. apply back_0.
  - cbn [save_rows map read_rows fst snd] in E. cbn [fst snd] in Ft, Fa. rewrite !back_read in E by assumption. unfold save_rows in IH. destruct (read_rows _) as [t'|] eqn:Er; [|discriminate]. injection E as <-.
    cbn [map peak_R fold_right snd fst]. fold (peak_R (map snd t')). fold (peak_R (map (fun r => val (snd r)) rows)). rewrite (IH t' eq_refl), back_abs by exact Hq.
    set (b := peak_R _). destruct (Rle_dec (Rabs (val a)) b) as [L|L]; [rewrite !Rmax_right; [reflexivity|exact L|apply back_mono; assumption]|].
    rewrite !Rmax_left; [reflexivity|lra|apply back_mono; [assumption|lra]].
Qed.

(** The time step read is that of the record up to the digits of its first two times. *)
Theorem C118_step : forall p q r0 r1 rows got dt, (1 <= p)%nat -> (1 <= q)%nat -> finite_rows (r0 :: r1 :: rows) -> ordinary (fst r0) -> ordinary (fst r1) ->
  read_rows (save_rows p q (r0 :: r1 :: rows)) = Some got -> read_step got = Some dt ->
  Rabs (dt - (val (fst r1) - val (fst r0))) <= (/ 2 * tenpow (1 - Z.of_nat p) + 4 * ueps) * (1 + ueps) * (Rabs (val (fst r0)) + Rabs (val (fst r1))).
Proof.
  intros p q [t0 a0] [t1 a1] rows got dt Hp Hq Fr O0 O1 E S. cbn [fst] in *. inversion Fr as [|? ? [F0 G0] Fr1]; subst. inversion Fr1 as [|? ? [F1 G1] Fr2]; subst. cbn [fst snd] in *.
  cbn [save_rows map read_rows fst snd] in E. rewrite !back_read in E by assumption. destruct (read_rows _) as [t'|]; [|discriminate]. injection E as <-. cbn [read_step fst] in S. injection S as <-. change (rnd64 ?a) with (rnd a).
  pose proof (back_err p t0 Hp O0) as E0. pose proof (back_err p t1 Hp O1) as E1. set (b0 := back p (val t0)) in *. set (b1 := back p (val t1)) in *.
  assert (D0 : dbl b0) by apply rnd_dbl. assert (D1 : dbl b1) by apply rnd_dbl. destruct (rnd_plus' b1 (- b0) D1 (generic_format_opp _ _ _ D0)) as (e & He & V). unfold Rminus at 2. rewrite V. fold (b1 - b0).
  set (h := / 2 * tenpow (1 - Z.of_nat p)) in *. assert (Hh : 0 <= h) by (unfold h; pose proof (bpow_ge_0 radix10 (1 - Z.of_nat p)); lra). pose proof ueps_pos as U. pose proof ueps_small as U'.
  pose proof (Rabs_pos (val t0)) as A0. pose proof (Rabs_pos (val t1)) as A1. set (S := Rabs (val t0) + Rabs (val t1)). set (d := val t1 - val t0).
  assert (X : Rabs ((b1 - b0) - d) <= (h + 2 * ueps) * S).
  { unfold d. replace (b1 - b0 - (val t1 - val t0)) with ((b1 - val t1) - (b0 - val t0)) by ring. unfold Rminus at 1. eapply Rle_trans; [apply Rabs_triang|]. rewrite Rabs_Ropp. unfold S. lra. }
  assert (Dd : Rabs d <= S) by (unfold d, S, Rminus; eapply Rle_trans; [apply Rabs_triang|]; rewrite Rabs_Ropp; lra).
  assert (Y : Rabs (b1 - b0) <= (1 + h + 2 * ueps) * S).
  { replace (b1 - b0) with ((b1 - b0 - d) + d) by ring. eapply Rle_trans; [apply Rabs_triang|]. lra. }
  replace ((b1 - b0) * (1 + e) - d) with ((b1 - b0 - d) + (b1 - b0) * e) by ring. eapply Rle_trans; [apply Rabs_triang|]. rewrite Rabs_mult.
  assert (Z : Rabs (b1 - b0) * Rabs e <= (1 + h + 2 * ueps) * S * ueps) by (apply Rmult_le_compat; try apply Rabs_pos; assumption).
  assert (S0 : 0 <= S) by (unfold S; lra). assert (K : (h + 2 * ueps) + (1 + h + 2 * ueps) * ueps <= (h + 4 * ueps) * (1 + ueps)) by nra.
  apply Rmult_le_compat_r with (r := S) in K; [|exact S0]. lra.
Qed.

(** Finding: when the first two times differ by less than the digits show, the time step read is 0 or far too large.  *)
Lemma digits_multiple p m r : (1 <= p)%nat -> tenpow m <= r -> exists n, nearest_digits p r = IZR n * tenpow (m + 1 - Z.of_nat p).
Proof.
  intros Hp H. assert (P : 0 < tenpow m) by apply bpow_gt_0. assert (L : (m + 1 <= mag radix10 r)%Z).
  { destruct (Z.le_gt_cases (m + 1) (mag radix10 r)) as [|G]; [assumption|]. exfalso. pose proof (bpow_mag_gt radix10 r) as B. rewrite Rabs_pos_eq in B by lra. assert (tenpow (mag radix10 r) <= tenpow m) by (apply bpow_le; lia). lra. }
  unfold round, F2R, cexp, FLX_exp. cbn [Fnum Fexp]. set (n := ZnearestE _). exists (n * 10 ^ (mag radix10 r - (m + 1)))%Z. rewrite mult_IZR, IZR_pow10 by lia. rewrite Rmult_assoc, <- bpow_plus. do 2 f_equal. lia.
Qed.
Theorem C118_late : forall p q r0 r1 rows got dt m, (1 <= p <= 15)%nat -> (1 <= q)%nat -> finite_rows (r0 :: r1 :: rows) ->
  (-200 <= m <= 200)%Z -> tenpow m <= val (fst r0) -> val (fst r0) <= val (fst r1) -> val (fst r1) < tenpow (m + 1) ->
  read_rows (save_rows p q (r0 :: r1 :: rows)) = Some got -> read_step got = Some dt -> dt = 0 \/ 9 / 10 * tenpow (m + 1 - Z.of_nat p) - 22 * ueps * tenpow m <= dt.
Proof.
  intros p q [t0 a0] [t1 a1] rows got dt m Hp Hq Fr Hm L0 L1 U1 E S. cbn [fst] in *. inversion Fr as [|? ? [F0 G0] Fr1]; subst. inversion Fr1 as [|? ? [F1 G1] Fr2]; subst. cbn [fst snd] in *.
  cbn [save_rows map read_rows fst snd] in E. rewrite !back_read in E by (try assumption; lia). destruct (read_rows _) as [t'|]; [|discriminate]. injection E as <-. cbn [read_step fst] in S. injection S as <-. change (rnd64 ?a) with (rnd a).
  unfold back. destruct (digits_multiple p m (val t0) ltac:(lia) L0) as (n0 & E0). destruct (digits_multiple p m (val t1) ltac:(lia) ltac:(lra)) as (n1 & E1).
  assert (Pg : Prec_gt_0 (Z.of_nat p)) by (unfold Prec_gt_0; lia).
  assert (LE : nearest_digits p (val t0) <= nearest_digits p (val t1)) by (apply round_le; try typeclasses eauto; exact L1).
  assert (Up : nearest_digits p (val t1) <= tenpow (m + 1)).
  { rewrite <- (round_generic radix10 (FLX_exp (Z.of_nat p)) ZnearestE (tenpow (m + 1))); [apply round_le; try typeclasses eauto; lra|]. apply generic_format_bpow. unfold FLX_exp. lia. }
  assert (Lo : tenpow m <= nearest_digits p (val t0)).
  { rewrite <- (round_generic radix10 (FLX_exp (Z.of_nat p)) ZnearestE (tenpow m)); [apply round_le; try typeclasses eauto; exact L0|]. apply generic_format_bpow. unfold FLX_exp. lia. }
  set (v0 := nearest_digits p (val t0)) in *. set (v1 := nearest_digits p (val t1)) in *. destruct (Req_dec v1 v0) as [Q|Q]; [left; rewrite Q; replace (rnd v0 - rnd v0) with 0 by ring; apply rnd_0|right].
  assert (G : tenpow (m + 1 - Z.of_nat p) <= v1 - v0).
  { rewrite <- (Rabs_pos_eq (v1 - v0)) by lra. rewrite E0, E1. apply multiples; [lia|lia|]. rewrite <- E0, <- E1. exact Q. }
  set (g := tenpow (m + 1 - Z.of_nat p)) in *. assert (P : 0 < g) by apply bpow_gt_0. assert (Pm : 0 < tenpow m) by apply bpow_gt_0.
  assert (Tm : tenpow (m + 1) = 10 * tenpow m) by (rewrite bpow_plus; change (tenpow 1) with 10; ring).
  assert (Sm : bpow radix2 (-1022) <= tenpow m).
  { apply Rle_trans with (tenpow (-200)); [|apply bpow_le; lia]. replace (tenpow (-200)) with (/ tenpow 200) by (symmetry; apply (bpow_opp radix10 200)). replace (bpow radix2 (-1022)) with (/ bpow radix2 1022) by (symmetry; apply (bpow_opp radix2 1022)).
    apply Rinv_le; [apply bpow_gt_0|]. rewrite <- (IZR_Zpower radix10 200), <- (IZR_Zpower radix2 1022) by lia. apply IZR_le. vm_compute. discriminate. }
  pose proof (rnd_near v0 ltac:(rewrite Rabs_pos_eq; lra)) as R0. pose proof (rnd_near v1 ltac:(rewrite Rabs_pos_eq; lra)) as R1. rewrite (Rabs_pos_eq v0) in R0 by lra. rewrite (Rabs_pos_eq v1) in R1 by lra. apply Rabs_le_inv in R0, R1. 
  destruct (rnd_plus' (rnd v1) (- rnd v0) (rnd_dbl v1) (generic_format_opp _ _ _ (rnd_dbl v0))) as (e & He & V). unfold Rminus at 2. rewrite V. fold (rnd v1 - rnd v0). apply Rabs_le_inv in He. pose proof ueps_pos as U. pose proof ueps_small as U'.
  assert (K : v1 - v0 - 20 * ueps * tenpow m <= rnd v1 - rnd v0).
  { assert (ueps * v0 <= ueps * (10 * tenpow m)) by (apply Rmult_le_compat_l; lra). assert (ueps * v1 <= ueps * (10 * tenpow m)) by (apply Rmult_le_compat_l; lra). lra. }
  assert (UT : ueps <= / 9000000000000000) by (unfold ueps; apply Rinv_le; [lra|simpl; lra]).
  assert (Mono : 0 <= rnd v1 - rnd v0) by (pose proof (rnd_mono v0 v1 LE); lra).
  assert (rnd v1 - rnd v0 <= 11 * tenpow m) by (assert (ueps * v1 <= / 10 * (10 * tenpow m)) by (apply Rmult_le_compat; lra); assert (ueps * v0 <= / 10 * v0) by (apply Rmult_le_compat_r; lra); lra).
  assert (J : (rnd v1 - rnd v0) * - ueps <= (rnd v1 - rnd v0) * e) by (apply Rmult_le_compat_l; lra).
  assert (J' : (rnd v1 - rnd v0) * ueps <= / 10 * (rnd v1 - rnd v0)) by (rewrite (Rmult_comm (/ 10)); apply Rmult_le_compat_l; lra).
  assert (0 <= ueps * tenpow m) by (apply Rmult_le_pos; lra). lra.
Qed.
Definition late_rows : list (f64 * f64) := [(lit 1000 0, lit 1 (-3)); (lit 8796180983138222 (-43), lit (-3) (-2)); (lit 1000 0, f0)].
Theorem C118_step_refuted : exists got, finite_rows late_rows /\ val (fst (nth 0 late_rows (f0, f0))) + 9 / 1000 <= val (fst (nth 1 late_rows (f0, f0))) /\
  read_rows (save_rows 5 5 late_rows) = Some got /\ read_step got = Some 0.
Proof.
  assert (F : finite_rows late_rows) by (repeat constructor; vm_compute; reflexivity).
  exists (back_rows 5 5 late_rows). split; [exact F|]. split.
  - cbn [late_rows nth fst]. destruct (lit_ok 1000 0 ltac:(cbn; lia) ltac:(lia)) as [_ V0]. destruct (lit_ok 8796180983138222 (-43) ltac:(cbn; lia) ltac:(lia)) as [_ V1]. rewrite V0, V1. change (bpow radix2 0) with 1. change (bpow radix2 (-43)) with (/ 8796093022208). lra.
  - split; [apply reads_back; [lia|lia|exact F]|]. assert (T0 : fmt_g 5 (lit 1000 0) = "1000") by (vm_compute; reflexivity). assert (T1 : fmt_g 5 (lit 8796180983138222 (-43)) = "1000") by (vm_compute; reflexivity).
    pose proof (back_read 5 (lit 1000 0) ltac:(lia) (proj1 (lit_ok 1000 0 ltac:(cbn; lia) ltac:(lia)))) as B0. pose proof (back_read 5 (lit 8796180983138222 (-43)) ltac:(lia) (proj1 (lit_ok 8796180983138222 (-43) ltac:(cbn; lia) ltac:(lia)))) as B1.
    rewrite T0 in B0. rewrite T1, B0 in B1. assert (Eb : back 5 (val (lit 1000 0)) = back 5 (val (lit 8796180983138222 (-43)))) by congruence.
    unfold late_rows, back_rows. rewrite !map_cons. unfold read_step, fst. rewrite <- Eb. f_equal. change (rnd64 ?a) with (rnd a). rewrite Rminus_diag_eq by reflexivity. apply rnd_0.
Qed.
Example C118_instance : finite_rows late_rows /\ save_rows 5 5 late_rows = [("1000", "0.125"); ("1000", "-0.75"); ("1000", "0")] /\
  save_rows 5 5 [(lit 5764607523034235 (-59), lit 1 0); (lit 5764607523034235 (-58), lit 3 0)] = [("0.01", "1"); ("0.02", "3")].
Proof. split; [repeat constructor; vm_compute; reflexivity|]. split; vm_compute; reflexivity. Qed.
