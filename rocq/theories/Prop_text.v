(** C117: numbers in text files. *)
From Coq Require Import ZArith List Bool String Ascii Reals Lia Lra.
From Flocq Require Import Core Relative IEEE754.BinarySingleNaN.
From Verif Require Import Base M_float P_float M_text P_text.
Import ListNotations.
Open Scope string_scope.
Open Scope R_scope.

Notation nearest_fixed p := (round radix10 (FIX_exp (- Z.of_nat p)) ZnearestE).
Notation nearest_digits p := (round radix10 (FLX_exp (Z.of_nat p)) ZnearestE).

Definition signed (s : bool) (r : R) : R := if s then - r else r.
Lemma signed_Z (s : bool) n : IZR (if s then - n else n) = signed s (IZR n). Proof. destruct s; [apply opp_IZR|reflexivity]. Qed.
Lemma signed_mul s a b : signed s a * b = signed s (a * b). Proof. destruct s; cbn; ring. Qed.
Lemma signed_round fexp s r : round radix10 fexp ZnearestE (signed s r) = signed s (round radix10 fexp ZnearestE r).
Proof. destruct s; cbn; [apply round_NE_opp|reflexivity]. Qed.
Lemma val_signed x : fin x = true -> val x = signed (neg x) (Rabs (val x)). Proof. intros F. rewrite (val_sign x F) at 1. reflexivity. Qed.
Lemma special_fin x b : fin x = true -> special x b = sign_text (neg x) ++ b. Proof. destruct x; intros F; try discriminate; reflexivity. Qed.
Lemma near_le a b : a <= b -> (ZnearestE a <= ZnearestE b)%Z. Proof. apply Zrnd_le; typeclasses eauto. Qed.
Lemma near_IZR n : ZnearestE (IZR n) = n. Proof. apply Zrnd_IZR; typeclasses eauto. Qed.
Lemma Znearest_nonneg r : 0 <= r -> (0 <= ZnearestE r)%Z.
Proof. intros H. rewrite <- (near_IZR 0). apply near_le; exact H. Qed.

Theorem C117_fixed : forall p x, fin x = true -> text_value (fmt_f p x) = Some (nearest_fixed p (val x)).
Proof.
  intros p x F. unfold fmt_f. rewrite (special_fin x _ F). set (n := scaled x (Z.of_nat p)).
  assert (En : n = ZnearestE (Rabs (val x) * tenpow (Z.of_nat p))) by apply scaled_ok, F.
  assert (P : (0 < 10 ^ Z.of_nat p)%Z) by (apply pow10_pos; lia).
  assert (N0 : (0 <= n)%Z) by (rewrite En; apply Znearest_nonneg, Rmult_le_pos; [apply Rabs_pos|apply bpow_ge_0]).
  unfold text_value. rewrite read_plain by (try (apply Z.div_pos; lia); apply Z.mod_pos_bound, P). f_equal.
  rewrite Z.mod_mod by lia. rewrite (Z.mul_comm (n / _)), <- Z.div_mod by lia. rewrite signed_Z, signed_mul.
  rewrite (val_signed x F), signed_round. f_equal. unfold round, F2R, scaled_mantissa, cexp, FIX_exp. cbn [Fnum Fexp]. rewrite Z.opp_involutive, <- En. reflexivity.
Qed.

(** ** Significant digits *)
Lemma exp10_ok x : fin x = true -> val x <> 0 -> tenpow (exp10 x) <= Rabs (val x) < tenpow (exp10 x + 1).
Proof.
  intros F N. assert (M : (0 < mant x)%Z) by (pose proof (mant_pos x); pose proof (proj1 (mant_0 x F)); destruct (Z.eq_dec (mant x) 0); [exfalso; auto|lia]).
  rewrite (abs_val x F). unfold exp10. destruct (Z.leb_spec 0 (expo x)) as [H|H].
  - set (v := (mant x * 2 ^ expo x)%Z). assert (V : (0 < v)%Z) by (unfold v; pose proof (pow2_pos (expo x) H); nia).
    rewrite <- IZR_pow2, <- mult_IZR by exact H. fold v. destruct (ndig_ok v ltac:(lia)) as (W & A & B). specialize (B V).
    rewrite <- !IZR_pow10 by lia. split; [apply IZR_le, B|]. apply IZR_lt. replace (Z.of_nat (ndig v) - 1 + 1)%Z with (Z.of_nat (ndig v)) by lia. exact A.
  - set (k := Z.of_nat (ndig (2 ^ (- expo x)))). assert (D : (0 < 2 ^ (- expo x))%Z) by (apply pow2_pos; lia). set (d := (2 ^ (- expo x))%Z) in *.
    destruct (ndig_ok d ltac:(lia)) as (Wk & Ak & _). fold k in Ak. assert (K : (0 <= k)%Z) by (unfold k; lia). cbv zeta.
    set (q := (mant x * 10 ^ k / d)%Z). assert (Q : (0 < q)%Z) by (apply Z.div_str_pos; nia). destruct (ndig_ok q ltac:(lia)) as (Wq & A & B). specialize (B Q).
    assert (y : IZR (mant x) * bpow radix2 (expo x) = IZR (mant x * 10 ^ k) / IZR d * tenpow (- k)).
    { rewrite mult_IZR, IZR_pow10 by exact K. unfold d. rewrite IZR_pow2 by lia. rewrite !bpow_opp. unfold Rdiv. rewrite Rinv_inv. pose proof (bpow_gt_0 radix10 k). field. lra. }
    rewrite y. assert (Fl : Zfloor (IZR (mant x * 10 ^ k) / IZR d) = q) by (apply Zfloor_div; lia). set (Y := IZR (mant x * 10 ^ k) / IZR d) in *.
    pose proof (Zfloor_lb Y) as L. pose proof (Zfloor_ub Y) as U. rewrite Fl in L, U.
    replace (Z.of_nat (ndig q) - 1 - k)%Z with ((Z.of_nat (ndig q) - 1) + - k)%Z by lia. replace (Z.of_nat (ndig q) - 1 + - k + 1)%Z with (Z.of_nat (ndig q) + - k)%Z by lia. rewrite !bpow_plus.
    pose proof (bpow_gt_0 radix10 (- k)). split; [apply Rmult_le_compat_r; [lra|]|apply Rmult_lt_compat_r; [lra|]].
    + rewrite <- IZR_pow10 by lia. apply Rle_trans with (IZR q); [apply IZR_le, B|exact L].
    + eapply Rlt_le_trans; [exact U|]. rewrite <- IZR_pow10 by lia. rewrite <- plus_IZR. apply IZR_le. lia.
Qed.
Lemma exp10_mag x : fin x = true -> val x <> 0 -> mag_val radix10 _ (mag radix10 (Rabs (val x))) = (exp10 x + 1)%Z.
Proof. intros F N. apply mag_unique. rewrite Rabs_Rabsolu. replace (exp10 x + 1 - 1)%Z with (exp10 x) by lia. apply exp10_ok; assumption. Qed.

Lemma sci_ok p x : (1 <= p)%nat -> fin x = true -> val x <> 0 ->
  let '(n, e) := sci p x in (10 ^ (Z.of_nat p - 1) <= n < 10 ^ Z.of_nat p)%Z /\ IZR n * tenpow (e + 1 - Z.of_nat p) = nearest_digits p (Rabs (val x)).
Proof.
  intros Hp F N. unfold sci. set (E := exp10 x). destruct (exp10_ok x F N) as [L U]. fold E in L, U. rewrite (scaled_ok x _ F). set (y := Rabs (val x) * tenpow (Z.of_nat p - 1 - E)).
  assert (Y : tenpow (Z.of_nat p - 1) <= y < tenpow (Z.of_nat p)).
  { unfold y. pose proof (bpow_gt_0 radix10 (Z.of_nat p - 1 - E)). split.
    - replace (Z.of_nat p - 1)%Z with (E + (Z.of_nat p - 1 - E))%Z at 1 by lia. rewrite bpow_plus. apply Rmult_le_compat_r; lra.
    - replace (Z.of_nat p) with (E + 1 + (Z.of_nat p - 1 - E))%Z at 2 by lia. rewrite bpow_plus. apply Rmult_lt_compat_r; lra. }
  assert (Rd : nearest_digits p (Rabs (val x)) = IZR (ZnearestE y) * tenpow (E + 1 - Z.of_nat p)).
  { unfold round, F2R, scaled_mantissa, cexp. rewrite (exp10_mag x F N). fold E. unfold FLX_exp. cbn [Fnum Fexp].
    replace (- (E + 1 - Z.of_nat p))%Z with (Z.of_nat p - 1 - E)%Z by lia. reflexivity. }
  set (n := ZnearestE y) in *.
  assert (A : (10 ^ (Z.of_nat p - 1) <= n)%Z).
  { rewrite <- (near_IZR (10 ^ (Z.of_nat p - 1))). apply near_le. rewrite IZR_pow10 by lia. apply Y. }
  assert (B : (n <= 10 ^ Z.of_nat p)%Z).
  { rewrite <- (near_IZR (10 ^ Z.of_nat p)). apply near_le. rewrite IZR_pow10 by lia. lra. }
  destruct (Z.eqb_spec n (10 ^ Z.of_nat p)) as [Q|Q].
  - split; [split; [lia|apply Z.pow_lt_mono_r; lia]|]. rewrite Rd, Q, !IZR_pow10 by lia. rewrite <- !bpow_plus. f_equal. lia.
  - split; [lia|]. symmetry. exact Rd.
Qed.

Lemma point_plain sg q n : (0 <= n)%Z -> text_value (sign_text sg ++ point q n) = Some (signed sg (IZR n * tenpow (- Z.of_nat q))).
Proof.
  intros Hn. assert (P : (0 < 10 ^ Z.of_nat q)%Z) by (apply pow10_pos; lia). unfold point. destruct (strip_ok q (n mod 10 ^ Z.of_nat q) ltac:(apply Z.mod_pos_bound, P)) as (q' & f & Lq & Hf & -> & V).
  rewrite Z.mod_mod in V by lia. unfold text_value. rewrite read_plain by (try (apply Z.div_pos; lia); exact Hf). f_equal. rewrite signed_Z, signed_mul. f_equal.
  rewrite (Z.div_mod n (10 ^ Z.of_nat q) ltac:(lia)) at 2. rewrite V. set (a := (n / 10 ^ Z.of_nat q)%Z). set (b := (f mod 10 ^ Z.of_nat q')%Z).
  replace (10 ^ Z.of_nat q)%Z with (10 ^ Z.of_nat q' * 10 ^ (Z.of_nat q - Z.of_nat q'))%Z by (rewrite <- Z.pow_add_r by lia; f_equal; lia).
  rewrite !plus_IZR, !mult_IZR, !IZR_pow10 by lia. replace (- Z.of_nat q)%Z with (- Z.of_nat q' + - (Z.of_nat q - Z.of_nat q'))%Z by lia. rewrite (bpow_plus _ (- Z.of_nat q')), (bpow_opp _ (Z.of_nat q - Z.of_nat q')).
  pose proof (bpow_gt_0 radix10 (Z.of_nat q - Z.of_nat q')). field. lra.
Qed.
Lemma point_exp sg q n e : (0 <= n)%Z -> text_value (sign_text sg ++ (point q n ++ exp_text e)) = Some (signed sg (IZR n * tenpow (e - Z.of_nat q))).
Proof.
  intros Hn. assert (P : (0 < 10 ^ Z.of_nat q)%Z) by (apply pow10_pos; lia). unfold point. destruct (strip_ok q (n mod 10 ^ Z.of_nat q) ltac:(apply Z.mod_pos_bound, P)) as (q' & f & Lq & Hf & -> & V).
  rewrite append_assoc. rewrite Z.mod_mod in V by lia. unfold text_value. rewrite read_sci by (try (apply Z.div_pos; lia); exact Hf). f_equal. rewrite signed_Z, signed_mul. f_equal.
  rewrite (Z.div_mod n (10 ^ Z.of_nat q) ltac:(lia)) at 2. rewrite V. set (a := (n / 10 ^ Z.of_nat q)%Z). set (b := (f mod 10 ^ Z.of_nat q')%Z).
  replace (10 ^ Z.of_nat q)%Z with (10 ^ Z.of_nat q' * 10 ^ (Z.of_nat q - Z.of_nat q'))%Z by (rewrite <- Z.pow_add_r by lia; f_equal; lia).
  rewrite !plus_IZR, !mult_IZR, !IZR_pow10 by lia. replace (e - Z.of_nat q)%Z with (e - Z.of_nat q' + - (Z.of_nat q - Z.of_nat q'))%Z by lia. rewrite (bpow_plus _ (e - Z.of_nat q')), (bpow_opp _ (Z.of_nat q - Z.of_nat q')).
  pose proof (bpow_gt_0 radix10 (Z.of_nat q - Z.of_nat q')). field. lra.
Qed.

(** A text written with [p] significant digits denotes the nearest number with [p] significant decimal digits. *)
Theorem C117_general : forall p x, (1 <= p)%nat -> fin x = true -> text_value (fmt_g p x) = Some (nearest_digits p (val x)).
Proof.
  intros p x Hp F. unfold fmt_g. rewrite (special_fin x _ F). destruct (Z.eqb_spec (mant x) 0) as [Z0|Z0].
  - apply (mant_0 x F) in Z0. rewrite Z0, round_0 by typeclasses eauto. destruct (neg x); unfold text_value; cbn [sign_text append].
    + change (read_dec (String "-" (String "0" ""))) with (Some (0, 0)%Z). cbv iota beta. f_equal. ring.
    + change (read_dec (String "0" "")) with (Some (0, 0)%Z). cbv iota beta. f_equal. ring.
  - assert (N : val x <> 0) by (intros H; apply Z0, (mant_0 x F), H). pose proof (sci_ok p x Hp F N) as S. destruct (sci p x) as [n e]. destruct S as [[A B] V].
    assert (Hn : (0 <= n)%Z) by (pose proof (pow10_pos (Z.of_nat p - 1) ltac:(lia)); lia).
    rewrite (val_signed x F), signed_round, <- V. destruct ((e <? -4)%Z || (Z.of_nat p <=? e)%Z)%bool eqn:C.
    + rewrite point_exp by exact Hn. do 4 f_equal. lia.
    + apply orb_false_iff in C. destruct C as [C1 C2]. apply Z.ltb_ge in C1. apply Z.leb_gt in C2. rewrite point_plain by exact Hn. rewrite Z2Nat.id by lia. do 4 f_equal. lia.
Qed.

(** How far off, and in which order. *)
Theorem C117_error : forall p x, (1 <= p)%nat -> fin x = true -> exists v, text_value (fmt_g p x) = Some v /\ Rabs (v - val x) <= / 2 * tenpow (1 - Z.of_nat p) * Rabs (val x).
Proof.
  intros p x Hp F. exists (nearest_digits p (val x)). split; [apply C117_general; assumption|]. assert (Pg : Prec_gt_0 (Z.of_nat p)) by (unfold Prec_gt_0; lia).
  pose proof (relative_error_N_FLX radix10 (Z.of_nat p) Pg (fun t => negb (Z.even t)) (val x)) as E. replace (- Z.of_nat p + 1)%Z with (1 - Z.of_nat p)%Z in E by lia. exact E.
Qed.
Theorem C117_fixed_error : forall p x, fin x = true -> exists v, text_value (fmt_f p x) = Some v /\ Rabs (v - val x) <= / 2 * tenpow (- Z.of_nat p) /\ exists n, v = IZR n * tenpow (- Z.of_nat p).
Proof.
  intros p x F. exists (nearest_fixed p (val x)). split; [apply C117_fixed, F|]. split.
  - pose proof (error_le_half_ulp radix10 (FIX_exp (- Z.of_nat p)) (fun t => negb (Z.even t)) (val x)) as E. rewrite ulp_FIX in E. exact E.
  - exists (ZnearestE (scaled_mantissa radix10 (FIX_exp (- Z.of_nat p)) (val x))). reflexivity.
Qed.
Theorem C117_order : forall p x y, (1 <= p)%nat -> fin x = true -> fin y = true -> val x <= val y ->
  exists v w v' w', text_value (fmt_g p x) = Some v /\ text_value (fmt_g p y) = Some w /\ v <= w /\ text_value (fmt_f p x) = Some v' /\ text_value (fmt_f p y) = Some w' /\ v' <= w'.
Proof.
  intros p x y Hp Fx Fy L. assert (Pg : Prec_gt_0 (Z.of_nat p)) by (unfold Prec_gt_0; lia).
  exists (nearest_digits p (val x)), (nearest_digits p (val y)), (nearest_fixed p (val x)), (nearest_fixed p (val y)). rewrite !C117_general, !C117_fixed by assumption.
  repeat split; apply round_le; try typeclasses eauto; exact L.
Qed.

(** ** Reading back *)
Lemma ten15 : tenpow (-15) = / 1000000000000000. Proof. reflexivity. Qed.
Lemma multiples m1 e1 m2 e2 e : (e <= e1)%Z -> (e <= e2)%Z -> IZR m1 * tenpow e1 <> IZR m2 * tenpow e2 -> tenpow e <= Rabs (IZR m1 * tenpow e1 - IZR m2 * tenpow e2).
Proof.
  intros H1 H2. assert (S : forall m k, (e <= k)%Z -> IZR m * tenpow k = IZR (m * 10 ^ (k - e)) * tenpow e).
  { intros m k L. rewrite mult_IZR, IZR_pow10 by lia. rewrite Rmult_assoc, <- bpow_plus. do 2 f_equal. lia. }
  rewrite (S m1 e1 H1), (S m2 e2 H2). intros D.
  rewrite <- Rmult_minus_distr_r, <- minus_IZR, Rabs_mult, <- abs_IZR, (Rabs_pos_eq (tenpow e)) by apply bpow_ge_0. rewrite <- (Rmult_1_l (tenpow e)) at 1. apply Rmult_le_compat_r; [apply bpow_ge_0|].
  apply (IZR_le 1). assert (m1 * 10 ^ (e1 - e) - m2 * 10 ^ (e2 - e) <> 0)%Z; [|lia]. intros Q. apply D. f_equal. f_equal. lia.
Qed.
Lemma near_digits p v y : (1 <= p <= 15)%nat -> generic_format radix10 (FLX_exp (Z.of_nat p)) v -> Rabs (y - v) <= ueps * Rabs v -> nearest_digits p y = v.
Proof.
  intros Hp Gv E. assert (Pg : Prec_gt_0 (Z.of_nat p)) by (unfold Prec_gt_0; lia). set (w := nearest_digits p y).
  assert (U : 0 < ueps <= / 9000000000000000) by (split; [apply ueps_pos|unfold ueps; apply Rinv_le; [lra|simpl; lra]]).
  assert (Gw : generic_format radix10 (FLX_exp (Z.of_nat p)) w) by (apply generic_format_round; typeclasses eauto).
  destruct (Req_dec v 0) as [->|Nv].
  { rewrite Rabs_R0, Rmult_0_r, Rminus_0_r in E. assert (Y : y = 0) by (destruct (Req_dec y 0) as [|Ny]; [assumption|pose proof (Rabs_pos_lt _ Ny); lra]). unfold w. rewrite Y. apply round_0. typeclasses eauto. }
  assert (W : Rabs (w - v) <= 2 * ueps * Rabs v).
  { destruct (round_N_pt radix10 (FLX_exp (Z.of_nat p)) (fun t => negb (Z.even t)) y) as [_ Mi]. specialize (Mi v Gv). fold w in Mi. rewrite (Rabs_minus_sym v y) in Mi.
    replace (w - v) with ((w - y) + (y - v)) by ring. pose proof (Rabs_triang (w - y) (y - v)). lra. }
  destruct (Req_dec w v) as [|D]; [assumption|]. exfalso. pose proof (Rabs_pos_lt _ Nv) as Pv.
  assert (Wb : Rabs v * (99 / 100) <= Rabs w). { pose proof (Rabs_triang_inv v (v - w)) as T. replace (v - (v - w)) with w in T by ring. rewrite (Rabs_minus_sym v w) in T. assert (2 * ueps * Rabs v <= / 100 * Rabs v) by (apply Rmult_le_compat_r; lra). lra. }
  assert (Nw : w <> 0) by (intros Q; rewrite Q, Rabs_R0 in Wb; lra).
  assert (Ex : forall z, z <> 0 -> Rabs z * tenpow (- Z.of_nat p) <= tenpow (cexp radix10 (FLX_exp (Z.of_nat p)) z)).
  { intros z Nz. unfold cexp, FLX_exp. replace (mag radix10 z - Z.of_nat p)%Z with (mag radix10 z + - Z.of_nat p)%Z by lia. rewrite bpow_plus. apply Rmult_le_compat_r; [apply bpow_ge_0|]. left. apply bpow_mag_gt. }
  assert (T15 : / 1000000000000000 <= tenpow (- Z.of_nat p)) by (rewrite <- ten15; apply bpow_le; lia).
  set (ew := cexp radix10 (FLX_exp (Z.of_nat p)) w). set (ev := cexp radix10 (FLX_exp (Z.of_nat p)) v). pose proof (Ex w Nw) as Xw. pose proof (Ex v Nv) as Xv. fold ew in Xw. fold ev in Xv.
  unfold generic_format, F2R in Gw, Gv. cbn [Fnum Fexp] in Gw, Gv. fold ew in Gw. fold ev in Gv.
  assert (G : tenpow (Z.min ew ev) <= Rabs (w - v)) by (rewrite Gw, Gv; apply multiples; [lia|lia|rewrite <- Gw, <- Gv; exact D]).
  assert (X : Rabs v * (99 / 100) * / 1000000000000000 <= tenpow (Z.min ew ev)).
  { destruct (Z.min_dec ew ev) as [-> | ->].
    - eapply Rle_trans; [|exact Xw]. apply Rmult_le_compat; lra.
    - eapply Rle_trans; [|exact Xv]. apply Rmult_le_compat; lra. }
  assert (2 * ueps * Rabs v <= 2 * / 9000000000000000 * Rabs v) by (apply Rmult_le_compat_r; lra). lra.
Qed.

Lemma rnd_near v : bpow radix2 (-1022) <= Rabs v -> Rabs (rnd v - v) <= ueps * Rabs v.
Proof. intros H. destruct (rnd_rel v H) as (e & He & ->). replace (v * (1 + e) - v) with (e * v) by ring. rewrite Rabs_mult. apply Rmult_le_compat_r; [apply Rabs_pos|exact He]. Qed.

(** A double that is the nearest one to a number with at most [p] digits is written as that number, and read back exactly. *)
Theorem C117_exact : forall p x n k, (1 <= p <= 15)%nat -> fin x = true -> (Z.abs n < 10 ^ Z.of_nat p)%Z -> val x = rnd (IZR n * tenpow k) ->
  bpow radix2 (-1022) <= Rabs (IZR n * tenpow k) -> text_value (fmt_g p x) = Some (IZR n * tenpow k) /\ read_double (fmt_g p x) = Some (val x).
Proof.
  intros p x n k Hp F Hn V B. assert (T : text_value (fmt_g p x) = Some (IZR n * tenpow k)).
  { rewrite C117_general by (try lia; exact F). f_equal. apply near_digits; [exact Hp| |rewrite V; apply rnd_near, B]. apply generic_format_FLX. exists (Float radix10 n k); [reflexivity|]. cbn [Fnum]. exact Hn. }
  split; [exact T|]. unfold read_double. rewrite T, V. reflexivity.
Qed.

(** What was read from a text is written as the same text again. *)
Theorem C117_stable : forall p x y, (1 <= p <= 15)%nat -> fin x = true -> fin y = true -> bpow radix2 (-1000) <= Rabs (val x) -> read_double (fmt_g p x) = Some (val y) -> fmt_g p y = fmt_g p x.
Proof.
  intros p x y Hp Fx Fy B Rd. assert (Pg : Prec_gt_0 (Z.of_nat p)) by (unfold Prec_gt_0; lia). unfold read_double in Rd. rewrite C117_general in Rd by (try lia; exact Fx). injection Rd as Rd. change (rnd64 ?a) with (rnd a) in Rd.
  set (v := nearest_digits p (val x)) in *. pose proof (bpow_gt_0 radix2 (-1000)) as P0. assert (Nx : val x <> 0) by (intros Q; rewrite Q, Rabs_R0 in B; lra).
  assert (Gv : generic_format radix10 (FLX_exp (Z.of_nat p)) v) by (apply generic_format_round; typeclasses eauto).
  assert (Ev : Rabs (v - val x) <= / 2 * Rabs (val x)).
  { destruct (C117_error p x ltac:(lia) Fx) as (v' & Tv & E). rewrite C117_general in Tv by (try lia; exact Fx). injection Tv as <-. fold v in E. eapply Rle_trans; [exact E|]. apply Rmult_le_compat_r; [apply Rabs_pos|].
    assert (tenpow (1 - Z.of_nat p) <= 1) by (change 1 with (tenpow 0); apply bpow_le; lia). lra. }
  assert (Bv : bpow radix2 (-1022) <= Rabs v).
  { pose proof (Rabs_triang_inv (val x) (val x - v)) as T. replace (val x - (val x - v)) with v in T by ring. rewrite (Rabs_minus_sym (val x) v) in T.
    assert (2 * bpow radix2 (-1022) <= bpow radix2 (-1000)) by (change 2 with (bpow radix2 1); rewrite <- bpow_plus; apply bpow_le; lia). pose proof (bpow_gt_0 radix2 (-1022)). lra. }
  pose proof (rnd_near v Bv) as En. rewrite Rd in En. pose proof (near_digits p v (val y) Hp Gv En) as Ny. pose proof (bpow_gt_0 radix2 (-1022)) as P1.
  assert (Hv : v <> 0) by (intros Q; rewrite Q, Rabs_R0 in Bv; lra).
  assert (Ny0 : val y <> 0) by (intros Q; apply Hv; rewrite <- Ny, Q; apply round_0; typeclasses eauto).
  (* signs *)
  assert (Sg : neg y = neg x).
  { pose proof (val_signed x Fx) as Sx. pose proof (val_signed y Fy) as Sy. pose proof (Rabs_pos_lt _ Nx) as Px. pose proof (Rabs_pos_lt _ Ny0) as Py. pose proof ueps_small. pose proof ueps_pos.
    assert (En' : Rabs (val y - v) <= / 4 * Rabs v) by (eapply Rle_trans; [exact En|]; apply Rmult_le_compat_r; [apply Rabs_pos|lra]). apply Rabs_le_inv in Ev, En'.
    destruct (neg x), (neg y); try reflexivity; exfalso; cbn [signed] in Sx, Sy.
    - assert (v < 0) by lra. rewrite (Rabs_left v) in En' by lra. lra.
    - assert (v > 0) by lra. rewrite (Rabs_pos_eq v) in En' by lra. lra. }
  (* digits *)
  pose proof (sci_ok p x ltac:(lia) Fx Nx) as Ax. pose proof (sci_ok p y ltac:(lia) Fy Ny0) as Ay.
  assert (Ab : nearest_digits p (Rabs (val y)) = nearest_digits p (Rabs (val x))) by (rewrite !round_NE_abs by typeclasses eauto; rewrite Ny; reflexivity).
  assert (S : sci p y = sci p x).
  { destruct (sci p x) as [n e], (sci p y) as [n' e']. destruct Ax as [[A1 A2] A3], Ay as [[B1 B2] B3]. rewrite Ab, <- A3 in B3.
    assert (LE : forall a b c d, (10 ^ (Z.of_nat p - 1) <= a < 10 ^ Z.of_nat p)%Z -> (10 ^ (Z.of_nat p - 1) <= b < 10 ^ Z.of_nat p)%Z -> IZR a * tenpow (c + 1 - Z.of_nat p) = IZR b * tenpow (d + 1 - Z.of_nat p) -> (c <= d)%Z).
    { intros a b c d [a1 a2] [b1 b2] Q. destruct (Z.le_gt_cases c d) as [|L]; [assumption|]. exfalso.
      assert (X1 : tenpow c <= IZR a * tenpow (c + 1 - Z.of_nat p)).
      { replace c with ((Z.of_nat p - 1) + (c + 1 - Z.of_nat p))%Z at 1 by lia. rewrite bpow_plus. apply Rmult_le_compat_r; [apply bpow_ge_0|]. rewrite <- IZR_pow10 by lia. apply IZR_le, a1. }
      assert (X2 : IZR b * tenpow (d + 1 - Z.of_nat p) < tenpow (d + 1)).
      { replace (d + 1)%Z with (Z.of_nat p + (d + 1 - Z.of_nat p))%Z at 2 by lia. rewrite bpow_plus. apply Rmult_lt_compat_r; [apply bpow_gt_0|]. rewrite <- IZR_pow10 by lia. apply IZR_lt, b2. }
      assert (X3 : tenpow (d + 1) <= tenpow c) by (apply bpow_le; lia). lra. }
    pose proof (LE n' n e' e (conj B1 B2) (conj A1 A2) B3) as L1. pose proof (LE n n' e e' (conj A1 A2) (conj B1 B2) (eq_sym B3)) as L2. assert (e' = e) by lia. subst e'.
    f_equal. apply eq_IZR. apply Rmult_eq_reg_r in B3; [exact B3|]. pose proof (bpow_gt_0 radix10 (e + 1 - Z.of_nat p)). lra. }
  unfold fmt_g. rewrite (special_fin x _ Fx), (special_fin y _ Fy), Sg, S. f_equal.
  destruct (Z.eqb_spec (mant x) 0) as [Q|_]; [exfalso; apply Nx, (mant_0 x Fx), Q|]. destruct (Z.eqb_spec (mant y) 0) as [Q|_]; [exfalso; apply Ny0, (mant_0 y Fy), Q|]. reflexivity.
Qed.
(** Numbers that are not finite are no numbers in the file; ties go to the even digit; 350 with two digits is in scientific notation. *)
Lemma two_tenths : val (lit 3602879701896397 (-54)) = rnd (IZR 2 * tenpow (-1)).
Proof.
  destruct (lit_ok 3602879701896397 (-54) ltac:(cbn; lia) ltac:(lia)) as [_ V]. rewrite V. change (bpow radix2 (-54)) with (/ 18014398509481984). change (tenpow (-1)) with (/ 10). symmetry.
  assert (M : mag_val radix2 _ (mag radix2 (IZR 2 * / 10)) = (-2)%Z) by (apply mag_unique; rewrite Rabs_pos_eq by lra; change (bpow radix2 (-2 - 1)) with (/ 8); change (bpow radix2 (-2)) with (/ 4); lra).
  unfold rnd, round, F2R, scaled_mantissa, cexp. rewrite M. change (fexp64 (-2)) with (-55)%Z. cbn [Fnum Fexp]. change (bpow radix2 (- -55)) with 36028797018963968. change (bpow radix2 (-55)) with (/ 36028797018963968).
  rewrite (Znearest_imp _ _ 7205759403792794); [lra|]. apply Rabs_lt. lra.
Qed.
Example C117_instance :
  fmt_g 5 (lit 3602879701896397 (-54)) = "0.2" /\ fmt_g 5 (lit 1 (-8)) = "0.0039062" /\ fmt_g 2 (lit 350 0) = "3.5e+02" /\ fmt_f 2 (lit 1 (-9)) = "0.00" /\
  fmt_g 6 (lit (-1234567) (-30)) = "-0.00114978" /\ fmt_g 3 (lit 9996 0) = "1e+04" /\ text_value (fmt_g 5 B754_nan) = None /\
  (let x := lit 3602879701896397 (-54) in fin x = true /\ val x = rnd (IZR 2 * tenpow (-1)) /\ bpow radix2 (-1000) <= Rabs (val x) /\ read_double (fmt_g 5 x) = Some (val x)).
Proof.
  do 7 (split; [vm_compute; reflexivity|]). cbv zeta. split; [vm_compute; reflexivity|]. split; [exact two_tenths|].
  assert (B : forall k, (k <= -4)%Z -> bpow radix2 k <= / 16) by (intros k Hk; change (/ 16) with (bpow radix2 (-4)); apply bpow_le, Hk). split.
  - destruct (lit_ok 3602879701896397 (-54) ltac:(cbn; lia) ltac:(lia)) as [_ V]. rewrite V. change (bpow radix2 (-54)) with (/ 18014398509481984). rewrite Rabs_pos_eq by lra. specialize (B (-1000)%Z ltac:(lia)). lra.
  - apply (C117_exact 5 _ 2 (-1)); [lia|vm_compute; reflexivity|cbn; lia|exact two_tenths|]. change (tenpow (-1)) with (/ 10). rewrite Rabs_pos_eq by lra. specialize (B (-1022)%Z ltac:(lia)). lra.
Qed.
