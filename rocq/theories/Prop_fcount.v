(** C104: numbers of samples and of layers in double precision. *)
From Coq Require Import Reals List Bool ZArith Lia Lra Psatz Permutation.
From Flocq Require Import Core IEEE754.BinarySingleNaN Plus_error Relative Sterbenz.
From Verif Require Import Base M_float P_float Prop_fdepth.
Import ListNotations.
Open Scope R_scope.

Lemma int_dbl n : (Z.abs n <= 2 ^ 53)%Z -> dbl (IZR n).
Proof.
  intros H. destruct (lit_ok n 0 H ltac:(lia)) as [_ V]. change (bpow radix2 0) with 1 in V. rewrite Rmult_1_r in V. rewrite <- V. apply val_dbl.
Qed.
Lemma round_int rn x : round radix2 (FIX_exp 0) rn x = IZR (rn x).
Proof. unfold round, F2R, scaled_mantissa, cexp, FIX_exp. cbn [Fnum Fexp]. change (bpow radix2 (- 0)) with 1. change (bpow radix2 0) with 1. rewrite !Rmult_1_r. reflexivity. Qed.
Lemma fint_ok x : fin x = true -> fint x = Ok (Ztrunc (val x)).
Proof.
  intros F. unfold fint. rewrite F. assert (N : fnan x = false) by (destruct x as [s|[|]| |s m e B]; try discriminate F; reflexivity). rewrite N. f_equal.
  apply eq_IZR. rewrite (Btrunc_correct 53 1024 eq_refl x), round_int. reflexivity.
Qed.
Lemma fceil_ok x : fin x = true -> fin (fceil x) = true /\ val (fceil x) = IZR (Zceil (val x)).
Proof.
  intros F. Transparent fceil. unfold fceil, fin, val. Opaque fceil. destruct (Bnearbyint_correct 53 1024 _ mode_UP x) as (V & F' & _). rewrite F', V, round_int. split; [exact F|reflexivity].
Qed.
Lemma dbl53 : dbl (IZR (2 ^ 53)). Proof. apply int_dbl. lia. Qed.
Lemma quotient_fin t dt : fin t = true -> 0 < val dt -> 0 <= val t / val dt <= IZR (2 ^ 53) -> fin (fdiv t dt) = true /\ val (fdiv t dt) = rnd (val t / val dt).
Proof.
  intros Ft Hd Q. apply fdiv_fin; [exact Ft|lra|].
  destruct (rnd_between (val t / val dt) 0 (IZR (2 ^ 53)) dbl_0 dbl53 Q) as [A B].
  rewrite Rabs_pos_eq by exact A. eapply Rle_lt_trans; [exact B|]. change (IZR (2 ^ 53)) with (bpow radix2 53). apply bpow_lt. lia.
Qed.
(** Rounding does not cross integers. *)
Lemma rnd_floor q : 0 <= q <= IZR (2 ^ 53) -> IZR (Zfloor q) <= rnd q <= IZR (Zceil q).
Proof.
  intros [A B]. assert (F0 : (0 <= Zfloor q)%Z) by (apply Zfloor_lub; exact A). assert (C1 : (Zceil q <= 2 ^ 53)%Z) by (apply Zceil_glb; exact B).
  assert (C0 : (0 <= Zceil q)%Z). { apply le_IZR. pose proof (Zceil_ub q). lra. }
  assert (F1 : (Zfloor q <= 2 ^ 53)%Z). { apply le_IZR. pose proof (Zfloor_lb q). lra. }
  apply rnd_between; [apply int_dbl; lia|apply int_dbl; lia|]. split; [apply Zfloor_lb|apply Zceil_ub].
Qed.
Lemma normal_ge x : / 2 <= Rabs x -> bpow radix2 (-1022) <= Rabs x.
Proof. intros H. eapply Rle_trans; [|exact H]. change (/ 2) with (bpow radix2 (-1)). apply bpow_le. lia. Qed.
Lemma rnd_close q : / 2 <= q -> Rabs (rnd q - q) <= ueps * q.
Proof.
  intros H. assert (A : Rabs q = q) by (apply Rabs_pos_eq; lra). destruct (rnd_rel q) as (e & He & ->); [apply normal_ge; rewrite A; exact H|].
  replace (q * (1 + e) - q) with (e * q) by ring. rewrite Rabs_mult, A. apply Rmult_le_compat_r; lra.
Qed.

(** int(t / dt) is the number of whole steps in t, or one more if t is within rounding of that
    many steps. *)
Theorem C104_sample_number : forall t dt, fin t = true -> fin dt = true -> 0 < val dt -> 0 <= val t / val dt <= IZR (2 ^ 53) ->
  exists n, sample_no t dt = Ok n /\ IZR n <= val t / val dt * (1 + ueps) /\ val t / val dt < IZR n + 1 /\ (0 <= n)%Z.
Proof.
  intros t dt Ft Fd Hd Q. destruct (quotient_fin t dt Ft Hd Q) as [F V]. set (q := val t / val dt) in *. exists (Zfloor (rnd q)).
  pose proof (rnd_floor q Q) as [A B]. assert (P : 0 <= rnd q) by (apply rnd_nonneg, Q).
  split; [unfold sample_no; rewrite (fint_ok _ F), V, Ztrunc_floor by exact P; reflexivity|].
  assert (F0 : (0 <= Zfloor (rnd q))%Z) by (apply Zfloor_lub; exact P). split; [|split; [|exact F0]].
  - destruct (Z.eq_dec (Zfloor (rnd q)) 0) as [E|E]; [rewrite E; pose proof ueps_pos; nra|].
    assert (N1 : 1 <= IZR (Zfloor (rnd q))) by (apply IZR_le; lia). pose proof (Zfloor_lb (rnd q)) as L.
    assert (H2 : / 2 <= q).
    { apply Rnot_lt_le. intros C. assert (rnd q <= rnd (/ 2)) by (apply rnd_mono; lra).
      rewrite (rnd_id (/ 2)) in H by (change (/ 2) with (bpow radix2 (-1)); apply generic_format_bpow; unfold FLT_exp; lia). lra. }
    pose proof (rnd_close q H2) as Cl. apply Rabs_le_inv in Cl. lra.
  - apply Rlt_le_trans with (IZR (Zfloor q) + 1); [apply Zfloor_ub|]. apply Rplus_le_compat_r, IZR_le. apply Zfloor_lub. exact A.
Qed.
(** At an exact multiple it is the multiple. *)
Theorem C104_exact_multiple : forall t dt k, fin t = true -> fin dt = true -> 0 < val dt -> (0 <= k <= 2 ^ 53)%Z -> val t = IZR k * val dt -> sample_no t dt = Ok k.
Proof.
  intros t dt k Ft Fd Hd Hk E. assert (Q : val t / val dt = IZR k) by (rewrite E; field; lra).
  assert (K : 0 <= IZR k <= IZR (2 ^ 53)) by (split; apply IZR_le; lia).
  destruct (quotient_fin t dt Ft Hd ltac:(rewrite Q; exact K)) as [F V]. unfold sample_no. rewrite (fint_ok _ F), V, Q, rnd_id by (apply int_dbl; lia).
  rewrite Ztrunc_IZR. reflexivity.
Qed.
(** At the time of sample k as the code computes it (k * dt, rounded), or any time as close,
    it is k or k - 1 ... *)
Theorem C104_near_multiple : forall t dt k, fin t = true -> fin dt = true -> 0 < val dt -> (1 <= k <= 2 ^ 50)%Z ->
  Rabs (val t - IZR k * val dt) <= 2 * ueps * (IZR k * val dt) -> sample_no t dt = Ok k \/ sample_no t dt = Ok (k - 1)%Z.
Proof.
  intros t dt k Ft Fd Hd Hk N. assert (K1 : 1 <= IZR k <= IZR (2 ^ 50)) by (split; apply IZR_le; lia).
  assert (Q : Rabs (val t / val dt - IZR k) <= 2 * ueps * IZR k).
  { replace (val t / val dt - IZR k) with ((val t - IZR k * val dt) * / val dt) by (field; lra). rewrite Rabs_mult, (Rabs_pos_eq (/ val dt)) by (left; apply Rinv_0_lt_compat, Hd).
    apply Rmult_le_reg_r with (val dt); [exact Hd|]. rewrite Rmult_assoc, Rinv_l by lra. lra. }
  assert (Uk : ueps * IZR k <= / 8).
  { apply Rle_trans with (ueps * IZR (2 ^ 50)); [apply Rmult_le_compat_l; [pose proof ueps_pos; lra|lra]|]. unfold ueps. right. rewrite pow_IZR. apply Rmult_eq_reg_l with (IZR (2 ^ Z.of_nat 53)); [|apply IZR_neq; cbn; lia].
    rewrite <- Rmult_assoc, Rinv_r by (apply IZR_neq; cbn; lia). rewrite Rmult_1_l. replace (IZR (2 ^ Z.of_nat 53)) with (IZR (2 ^ 50) * 8) by (rewrite <- mult_IZR; reflexivity). field. }
  apply Rabs_le_inv in Q. assert (K2 : IZR (2 ^ 50) + 1 <= IZR (2 ^ 53)) by (rewrite <- (plus_IZR _ 1); apply IZR_le; lia).
  destruct (C104_sample_number t dt Ft Fd Hd) as (n & -> & A & B & C).
  { split; lra. }
  assert (Up : IZR n < IZR k + 1). { pose proof ueps_pos. pose proof ueps_small. nra. }
  assert (Lo : IZR k - 2 < IZR n) by lra.
  rewrite <- (plus_IZR k 1) in Up. rewrite <- (minus_IZR k 2) in Lo. apply lt_IZR in Up, Lo. assert (n = k \/ n = k - 1)%Z as [->| ->] by lia; auto.
Qed.
Theorem C104_sample_time : forall dt k, fin dt = true -> 0 < val dt -> bpow radix2 (-1022) <= val dt -> (1 <= k <= 2 ^ 50)%Z -> fin (fmul (lit k 0) dt) = true ->
  sample_no (fmul (lit k 0) dt) dt = Ok k \/ sample_no (fmul (lit k 0) dt) dt = Ok (k - 1)%Z.
Proof.
  intros dt k Fd Hd Nd Hk F. destruct (lit_ok k 0 ltac:(lia) ltac:(lia)) as [Fk Vk]. change (bpow radix2 0) with 1 in Vk. rewrite Rmult_1_r in Vk.
  assert (K1 : 1 <= IZR k) by (apply IZR_le; lia). apply C104_near_multiple; auto. rewrite (fmul_val _ _ F), Vk.
  assert (A : Rabs (IZR k * val dt) = IZR k * val dt) by (apply Rabs_pos_eq; nra).
  destruct (rnd_rel (IZR k * val dt)) as (e & He & ->); [rewrite A; nra|].
  replace (IZR k * val dt * (1 + e) - IZR k * val dt) with (e * (IZR k * val dt)) by ring. rewrite Rabs_mult, A. pose proof ueps_pos.
  apply Rmult_le_compat_r; [nra|lra].
Qed.
(** ... and k - 1 does happen: a record with steps of 0.01 s, cut from 0.29 s on, begins with
    sample 28; for steps of 0.1 s, cutting at 0.3 s uses sample 2. *)
Definition hundredth : f64 := lit 5764607523034235 (-59).
Definition d029 : f64 := lit 5224175567749775 (-54).
Definition d03 : f64 := lit 5404319552844595 (-54).
Theorem C104_sample_time_refuted : sample_no d029 hundredth = Ok 28%Z /\ feq (fmul (lit 29 0) hundredth) d029 = true /\ sample_no d03 tenth = Ok 2%Z.
Proof. split; [vm_compute; reflexivity|]. split; vm_compute; reflexivity. Qed.

(** A quotient that is not a number or infinite is refused by both conversions; so is a step of
    zero: with a time of zero as not a number, with any other as infinite. *)
Lemma fint_bad x : fin x = false -> fint x = Err (if fnan x then ValueError else OverflowError).
Proof. intros F. unfold fint. rewrite F. destruct (fnan x); reflexivity. Qed.
Lemma fceil_bad x : fin x = false -> fin (fceil x) = false /\ fnan (fceil x) = fnan x.
Proof. intros F. destruct x as [s|s| |s m e W]; try discriminate F; split; reflexivity. Qed.
Theorem C104_refused : forall x y, fin (fdiv x y) = false ->
  sample_no x y = Err (if fnan (fdiv x y) then ValueError else OverflowError) /\ layer_count x y = Err (if fnan (fdiv x y) then ValueError else OverflowError) /\
  forall t2 npts, cut_f x t2 y npts = Err (if fnan (fdiv x y) then ValueError else OverflowError).
Proof.
  intros x y F. assert (A : sample_no x y = Err (if fnan (fdiv x y) then ValueError else OverflowError)) by apply fint_bad, F.
  split; [exact A|]. split; [|intros t2 npts; unfold cut_f; rewrite A; reflexivity]. unfold layer_count. destruct (fceil_bad _ F) as [F' N']. rewrite fint_bad by exact F'. rewrite N'. reflexivity.
Qed.
Theorem C104_zero_step : forall t z, fin t = true -> z = f0 \/ z = B754_zero true ->
  sample_no t z = Err (if feq t f0 then ValueError else OverflowError) /\ layer_count t z = Err (if feq t f0 then ValueError else OverflowError).
Proof.
  intros t z F Hz. assert (Q : fin (fdiv t z) = false /\ fnan (fdiv t z) = feq t f0).
  { destruct t as [s|s| |s m e W]; try discriminate F; destruct Hz as [-> | ->]; split; try reflexivity; destruct s; reflexivity. }
  destruct Q as [Q1 Q2]. destruct (C104_refused t z Q1) as (A & B & _). rewrite Q2 in A, B. split; assumption.
Qed.
(** The samples kept are ordered and inside the record. *)
Theorem C104_cut : forall t1 t2 dt npts, fin t1 = true -> fin t2 = true -> fin dt = true -> 0 < val dt -> (0 <= npts)%Z ->
  0 <= val t1 -> val t1 <= val t2 -> val t2 / val dt <= IZR (2 ^ 53) ->
  exists n1 n2, cut_f t1 t2 dt npts = Ok (n1, n2) /\ (0 <= n1)%Z /\ (0 <= n2 <= npts)%Z /\ (n1 <= npts -> n1 <= n2)%Z.
Proof.
  intros t1 t2 dt npts F1 F2 Fd Hd Np P L Q.
  assert (Q12 : val t1 / val dt <= val t2 / val dt) by (apply Rmult_le_compat_r; [left; apply Rinv_0_lt_compat, Hd|exact L]).
  assert (Q1 : 0 <= val t1 / val dt) by (apply Rmult_le_pos; [exact P|left; apply Rinv_0_lt_compat, Hd]).
  destruct (quotient_fin t1 dt F1 Hd ltac:(lra)) as [G1 V1], (quotient_fin t2 dt F2 Hd ltac:(lra)) as [G2 V2].
  unfold cut_f, sample_no. rewrite (fint_ok _ G1), (fint_ok _ G2). cbn [bind]. rewrite V1, V2.
  rewrite !Ztrunc_floor by (apply rnd_nonneg; lra). set (a := Zfloor (rnd (val t1 / val dt))). set (b := Zfloor (rnd (val t2 / val dt))).
  assert (A : (0 <= a)%Z) by (apply Zfloor_lub, rnd_nonneg, Q1). assert (B : (a <= b)%Z) by (apply Zfloor_le, rnd_mono, Q12).
  exists (if (a <? 0)%Z then 0%Z else a), (if (npts <? b)%Z then npts else b). split; [reflexivity|].
  destruct (Z.ltb_spec a 0), (Z.ltb_spec npts b); lia.
Qed.

(** The number of layers of constant thickness: they reach the depth z up to rounding, and
    without the last one they would not. *)
Theorem C104_layer_count : forall z thk, fin z = true -> fin thk = true -> 0 < val thk -> 0 < val z -> / 2 <= val z / val thk <= IZR (2 ^ 53) ->
  exists n, layer_count z thk = Ok n /\ (IZR n - 1) * val thk < val z /\ val z * (1 - ueps) <= IZR n * val thk /\ (1 <= n)%Z.
Proof.
  intros z thk Fz Ft Ht Hz Q. destruct (quotient_fin z thk Fz Ht ltac:(lra)) as [F V]. destruct (fceil_ok _ F) as [Fc Vc].
  set (q := val z / val thk) in *. assert (Eq : val z = q * val thk) by (unfold q; field; lra).
  assert (P : 0 <= rnd q) by (apply rnd_nonneg; lra). pose proof (rnd_close q (proj1 Q)) as Cl. apply Rabs_le_inv in Cl. pose proof ueps_small as Us. pose proof ueps_pos as U.
  assert (Cp : (1 <= Zceil (rnd q))%Z).
  { assert (0 < rnd q) by nra. pose proof (Zceil_ub (rnd q)). assert (0 < IZR (Zceil (rnd q))) by lra. apply lt_IZR in H1. lia. }
  exists (Zceil (rnd q)). unfold layer_count. rewrite (fint_ok _ Fc), Vc, Ztrunc_IZR, V. split; [reflexivity|].
  pose proof (Zceil_ub (rnd q)) as Ub. split; [|split; [|exact Cp]].
  - rewrite Eq. apply Rmult_lt_compat_r; [exact Ht|]. apply Rnot_le_lt. intros C.
    assert (K : rnd q <= IZR (Zceil (rnd q) - 1)).
    { rewrite <- (rnd_id (IZR (Zceil (rnd q) - 1))).
      - apply rnd_mono. rewrite minus_IZR. exact C.
      - apply int_dbl. destruct (rnd_between q 0 (IZR (2 ^ 53)) dbl_0 dbl53 ltac:(lra)) as [_ W]. apply Zceil_glb in W. lia. }
    apply Zceil_glb in K. lia.
  - rewrite Eq. replace (q * val thk * (1 - ueps)) with ((q - ueps * q) * val thk) by ring. apply Rmult_le_compat_r; lra.
Qed.
(** Querying at an exact multiple. *)
Theorem C104_exact_layers : forall z thk k, fin z = true -> fin thk = true -> 0 < val thk -> (1 <= k <= 2 ^ 53)%Z -> val z = IZR k * val thk -> layer_count z thk = Ok k.
Proof.
  intros z thk k Fz Ft Ht Hk E. assert (Q : val z / val thk = IZR k) by (rewrite E; field; lra).
  assert (K : 0 <= IZR k <= IZR (2 ^ 53)) by (split; apply IZR_le; lia).
  destruct (quotient_fin z thk Fz Ht ltac:(rewrite Q; exact K)) as [F V]. destruct (fceil_ok _ F) as [Fc Vc].
  unfold layer_count. rewrite (fint_ok _ Fc), Vc, Ztrunc_IZR, V, Q, rnd_id by (apply int_dbl; lia). rewrite Zceil_IZR. reflexivity.
Qed.

(** A profile of k layers of one thickness, queried with that thickness: k layers or k + 1 ... *)
Lemma bernoulli k : INR k * ueps <= 1 -> (1 + ueps) ^ k * (1 - INR k * ueps) <= 1.
Proof.
  pose proof ueps_pos as U. induction k as [|k IH]; intros H; [cbn; lra|]. rewrite S_INR in *. pose proof (pos_INR k). specialize (IH ltac:(nra)).
  cbn [pow]. pose proof (E_ge1 k). apply Rle_trans with ((1 + ueps) ^ k * (1 - INR k * ueps)); [|exact IH].
  replace ((1 + ueps) * (1 + ueps) ^ k * (1 - (INR k + 1) * ueps)) with ((1 + ueps) ^ k * ((1 + ueps) * (1 - (INR k + 1) * ueps))) by ring.
  apply Rmult_le_compat_l; [lra|]. nra.
Qed.
Lemma pow_small k : INR k * ueps <= / 2 -> (1 + ueps) ^ k - 1 <= 2 * (INR k * ueps).
Proof.
  intros H. pose proof (bernoulli k ltac:(lra)) as B. pose proof (E_ge1 k). pose proof ueps_pos. pose proof (pos_INR k). set (x := INR k * ueps) in *.
  assert (0 <= x) by (unfold x; nra). set (P := (1 + ueps) ^ k) in *. apply Rnot_lt_le. intros C. nra.
Qed.
Lemma total_repeat x k : total (repeat x k) = INR k * val x.
Proof. induction k as [|k IH]; [cbn; ring|]. rewrite S_INR. cbn [repeat total]. rewrite IH. ring. Qed.
Theorem C104_own_thickness : forall thk k z, fin thk = true -> 0 < val thk -> (1 <= k)%nat -> (Z.of_nat k <= 2 ^ 25)%Z -> sums (repeat thk k) z -> fin z = true ->
  layer_count z thk = Ok (Z.of_nat k) \/ layer_count z thk = Ok (Z.of_nat k + 1)%Z.
Proof.
  intros thk k z Ft Ht Hk Hk2 Hs Fz. pose proof ueps_pos as U. pose proof ueps_small as Us.
  assert (T : Forall thickness (repeat thk k)) by (apply Forall_forall; intros x Hx; apply repeat_spec in Hx; subst x; split; [exact Ft|lra]).
  destruct (C103_total_depth _ _ Hs T Fz) as [_ E]. rewrite repeat_length, total_repeat in E.
  set (K := INR k) in *. assert (EK : K = IZR (Z.of_nat k)) by (unfold K; apply INR_IZR_INZ).
  assert (K1 : 1 <= K <= IZR (2 ^ 25)) by (rewrite EK; split; apply IZR_le; lia).
  assert (KU : K * K * ueps <= / 8).
  { apply Rle_trans with (IZR (2 ^ 25) * IZR (2 ^ 25) * ueps); [apply Rmult_le_compat_r; [lra|apply Rmult_le_compat; lra]|]. unfold ueps. rewrite pow_IZR, <- mult_IZR.
    apply Rmult_le_reg_r with (IZR (2 ^ Z.of_nat 53)); [apply IZR_lt; cbn; lia|]. rewrite Rmult_assoc, Rinv_l by (apply IZR_neq; cbn; lia).
    rewrite Rmult_1_r. replace (IZR (2 ^ Z.of_nat 53)) with (8 * IZR (2 ^ 25 * 2 ^ 25)) by (rewrite <- mult_IZR; reflexivity). lra. }
  assert (P : (1 + ueps) ^ Nat.pred k - 1 <= 2 * (K * ueps)).
  { apply Rle_trans with ((1 + ueps) ^ k - 1); [apply Rplus_le_compat_r, Rle_pow; [lra|lia]|]. apply pow_small. fold K. nra. }
  assert (Eq : Rabs (val z - K * val thk) <= / 4 * val thk).
  { eapply Rle_trans; [exact E|]. apply Rle_trans with (2 * (K * ueps) * (K * val thk)); [apply Rmult_le_compat_r; [nra|exact P]|].
    replace (2 * (K * ueps) * (K * val thk)) with (2 * (K * K * ueps) * val thk) by ring. apply Rmult_le_compat_r; lra. }
  apply Rabs_le_inv in Eq. set (q := val z / val thk). assert (Zq : val z = q * val thk) by (unfold q; field; lra).
  assert (Q1 : K - / 4 <= q <= K + / 4) by (rewrite Zq in Eq; split; nra).
  assert (K3 : IZR (2 ^ 25) + 1 <= IZR (2 ^ 53)) by (rewrite <- (plus_IZR _ 1); apply IZR_le; lia).
  destruct (C104_layer_count z thk Fz Ft Ht ltac:(nra) ltac:(fold q; lra)) as (n & -> & A & B & C). rewrite Zq in A, B.
  assert (A' : IZR n - 1 < q) by (apply Rmult_lt_reg_r with (val thk); assumption).
  assert (B' : q * (1 - ueps) <= IZR n) by (apply Rmult_le_reg_r with (val thk); [assumption|]; lra).
  assert (qu : q * ueps <= / 4) by nra.
  assert (Lo : K - 1 < IZR n) by lra. assert (Up : IZR n < K + 2) by lra. rewrite EK in Lo, Up. rewrite <- (plus_IZR _ 2) in Up. rewrite <- (minus_IZR _ 1) in Lo.
  apply lt_IZR in Lo, Up. assert (n = Z.of_nat k \/ n = Z.of_nat k + 1)%Z as [->| ->] by lia; auto.
Qed.
(** ... k for thicknesses whose sums are exact ... *)
Theorem C104_own_thickness_exact : forall e thk k z, (-1074 <= e)%Z -> multiple e thk -> 0 < val thk -> (1 <= k)%nat -> (Z.of_nat k <= 2 ^ 53)%Z ->
  INR k * val thk <= bpow radix2 (53 + e) -> INR k * val thk < top64 -> sums (repeat thk k) z -> layer_count z thk = Ok (Z.of_nat k).
Proof.
  intros e thk k z He M Ht Hk Hk2 B T Hs. rewrite <- total_repeat in B, T.
  destruct (C103_exact_total e _ _ Hs He ltac:(apply Forall_forall; intros x Hx; apply repeat_spec in Hx; subst x; exact M) B T) as [F V].
  apply C104_exact_layers; [exact F|apply M|exact Ht|lia|]. rewrite V, total_repeat, INR_IZR_INZ. reflexivity.
Qed.
(** ... but k + 1 for three layers of 0.1 m. *)
Theorem C104_own_thickness_refuted : exists z, sums (repeat tenth 3) z /\ layer_count z tenth = Ok 4%Z.
Proof.
  exists (fadd (fadd tenth tenth) tenth). split; [apply (sums_app [tenth; tenth] [tenth]); [apply (sums_app [tenth] [tenth])|]; constructor|]. vm_compute. reflexivity.
Qed.

(** Other values. *)
Theorem C104_not_a_number : forall t dt, fnan (fdiv t dt) = true -> sample_no t dt = Err ValueError.
Proof. intros t dt H. unfold sample_no, fint. rewrite H. reflexivity. Qed.
Example C104_instance : sample_no (lit 5 (-1)) (lit 1 (-3)) = Ok 20%Z /\ layer_count (lit 25 (-3)) (lit 1 (-1)) = Ok 7%Z /\
  cut_f (lit 1 0) (lit 9 0) (lit 1 (-3)) 50 = Ok (8%Z, 50%Z) /\ sample_no (lit (-7) (-4)) (lit 1 (-1)) = Ok 0%Z /\
  fnan (fdiv f0 f0) = true /\ sample_no (lit 1 0) f0 = Err OverflowError /\
  fin tenth = true /\ flt f0 tenth = true /\ fin (fmul (lit 29 0) hundredth) = true.
Proof. repeat (split; [vm_compute; reflexivity|]). vm_compute. reflexivity. Qed.
