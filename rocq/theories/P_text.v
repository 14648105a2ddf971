(** Lemmas about the texts of numbers. *)
From Coq Require Import ZArith List Bool String Ascii Reals Lia Lra.
From Flocq Require Import Core IEEE754.BinarySingleNaN.
From Verif Require Import Base M_float P_float M_text.
Import ListNotations.
Open Scope string_scope.
Open Scope R_scope.

Notation tenpow := (bpow radix10).

(** ** Rounding a quotient *)
Lemma rdiv_ok a b : (0 < b)%Z -> rdiv a b = ZnearestE (IZR a / IZR b).
Proof.
  intros Hb. unfold rdiv, Znearest. pose proof (Z.div_mod a b ltac:(lia)) as E. pose proof (Z.mod_pos_bound a b Hb) as M.
  assert (B : 0 < IZR b) by (apply (IZR_lt 0); lia).
  assert (Q : IZR a / IZR b = IZR (a / b) + IZR (a mod b) / IZR b) by (rewrite E at 1; rewrite plus_IZR, mult_IZR; field; lra).
  rewrite (Zfloor_div a b) by lia. rewrite Q. replace (IZR (a / b) + IZR (a mod b) / IZR b - IZR (a / b)) with (IZR (a mod b) / IZR b) by ring.
  assert (C : (2 * (a mod b) < b)%Z -> IZR (a mod b) / IZR b < / 2).
  { intros H. apply IZR_lt in H. rewrite mult_IZR in H. apply (Rmult_lt_reg_r (IZR b)); [exact B|]. unfold Rdiv. rewrite Rmult_assoc, Rinv_l by lra. lra. }
  assert (D : (b < 2 * (a mod b))%Z -> / 2 < IZR (a mod b) / IZR b).
  { intros H. apply IZR_lt in H. rewrite mult_IZR in H. apply (Rmult_lt_reg_r (IZR b)); [exact B|]. unfold Rdiv. rewrite Rmult_assoc, Rinv_l by lra. lra. }
  assert (U : IZR (a mod b) <> 0 -> Zceil (IZR (a / b) + IZR (a mod b) / IZR b) = (a / b + 1)%Z).
  { intros N. apply Zceil_imp. rewrite plus_IZR, minus_IZR, plus_IZR. assert (0 <= IZR (a mod b)) by (apply (IZR_le 0); lia). assert (IZR (a mod b) < IZR b) by (apply IZR_lt; lia).
    assert (0 < IZR (a mod b) / IZR b < 1); [|lra]. split; [apply Rdiv_lt_0_compat; lra|]. apply (Rmult_lt_reg_r (IZR b)); [exact B|]. unfold Rdiv. rewrite Rmult_assoc, Rinv_l by lra. lra. }
  destruct (Z.ltb_spec (2 * (a mod b)) b) as [H|H]; [rewrite Rcompare_Lt by auto; reflexivity|].
  assert (N0 : IZR (a mod b) <> 0) by (apply (IZR_neq _ 0); lia).
  destruct (Z.ltb_spec b (2 * (a mod b))) as [H'|H']; [rewrite Rcompare_Gt by auto; symmetry; auto|].
  rewrite Rcompare_Eq.
  - rewrite (U N0). destruct (Z.even (a / b)); reflexivity.
  - assert (T : (2 * (a mod b) = b)%Z) by lia. apply (f_equal IZR) in T. rewrite mult_IZR in T. apply (Rmult_eq_reg_r (IZR b)); [|lra]. unfold Rdiv. rewrite Rmult_assoc, Rinv_l by lra. lra.
Qed.

Lemma pow10_pos k : (0 <= k)%Z -> (0 < 10 ^ k)%Z. Proof. intros. apply Z.pow_pos_nonneg; lia. Qed.
Lemma pow2_pos k : (0 <= k)%Z -> (0 < 2 ^ k)%Z. Proof. intros. apply Z.pow_pos_nonneg; lia. Qed.
Lemma IZR_pow10 k : (0 <= k)%Z -> IZR (10 ^ k) = tenpow k. Proof. intros. apply (IZR_Zpower radix10), H. Qed.
Lemma IZR_pow2 k : (0 <= k)%Z -> IZR (2 ^ k) = bpow radix2 k. Proof. intros. apply (IZR_Zpower radix2), H. Qed.
Lemma split_bpow r k : bpow r k = bpow r (Z.max k 0) * / bpow r (Z.max (- k) 0).
Proof. rewrite <- bpow_opp, <- bpow_plus. f_equal. lia. Qed.

(** The size of a finite double. *)
Lemma abs_val x : fin x = true -> Rabs (val x) = IZR (mant x) * bpow radix2 (expo x).
Proof.
  destruct x as [s|s| |s m e B]; intros F; try discriminate F; unfold val, B2R, mant, expo.
  - rewrite Rabs_R0. ring.
  - rewrite <- F2R_Zabs, abs_cond_Zopp. reflexivity.
Qed.
Lemma val_sign x : fin x = true -> val x = (if neg x then - Rabs (val x) else Rabs (val x)).
Proof.
  destruct x as [s|s| |s m e B]; intros F; try discriminate F; unfold neg.
  - unfold val, B2R. rewrite Rabs_R0. destruct s; ring.
  - unfold val, B2R. rewrite <- F2R_Zabs, abs_cond_Zopp. destruct s; cbn [cond_Zopp Z.abs]; [|reflexivity]. change (Z.neg m) with (- Z.pos m)%Z. apply F2R_Zopp.
Qed.
Lemma mant_pos x : (0 <= mant x)%Z. Proof. destruct x; cbn; lia. Qed.
Lemma mant_0 x : fin x = true -> (mant x = 0%Z <-> val x = 0).
Proof.
  intros F. pose proof (abs_val x F) as A. pose proof (bpow_gt_0 radix2 (expo x)). split; intros E.
  - rewrite E, Rmult_0_l in A. destruct (Req_dec (val x) 0); [assumption|]. pose proof (Rabs_pos_lt _ H0). lra.
  - rewrite E, Rabs_R0 in A. symmetry in A. apply Rmult_integral in A. destruct A; [apply eq_IZR in H0; exact H0|lra].
Qed.
(** The size times a power of ten, rounded. *)
Lemma scaled_ok x k : fin x = true -> scaled x k = ZnearestE (Rabs (val x) * tenpow k).
Proof.
  intros F. unfold scaled. pose proof (pow2_pos (Z.max (- expo x) 0) ltac:(lia)). pose proof (pow10_pos (Z.max (- k) 0) ltac:(lia)).
  rewrite rdiv_ok by nia. f_equal. rewrite (abs_val x F), !mult_IZR, !IZR_pow2, !IZR_pow10 by lia.
  rewrite (split_bpow radix2 (expo x)), (split_bpow radix10 k).
  pose proof (bpow_gt_0 radix2 (Z.max (- expo x) 0)). pose proof (bpow_gt_0 radix10 (Z.max (- k) 0)). field. lra.
Qed.

(** ** Digits *)
Lemma append_length (a b : string) : String.length (a ++ b) = (String.length a + String.length b)%nat.
Proof. induction a; cbn; [reflexivity|]. f_equal. assumption. Qed.
Lemma dig_length w : forall n, String.length (dig w n) = w.
Proof. induction w; intros n; [reflexivity|]. cbn [dig]. rewrite append_length, IHw. cbn. lia. Qed.
Lemma ndig_go_ok f : forall n, (0 <= n)%Z -> (n < 2 ^ Z.of_nat (S f))%Z ->
  (1 <= ndig_go f n)%nat /\ (n < 10 ^ Z.of_nat (ndig_go f n))%Z /\ ((0 < n)%Z -> (10 ^ (Z.of_nat (ndig_go f n) - 1) <= n)%Z).
Proof.
  induction f as [|f IH]; intros n H0 H; [cbn [ndig_go]; change (2 ^ Z.of_nat 1)%Z with 2%Z in H; split; [lia|]; split; [lia|]; intros; lia|].
  cbn [ndig_go]. destruct (Z.ltb_spec n 10) as [L|L]; [split; [lia|]; split; [lia|]; intros; change (10 ^ (Z.of_nat 1 - 1))%Z with 1%Z; lia|].
  assert (D : (0 <= n / 10)%Z) by (apply Z.div_pos; lia).
  assert (D' : (n / 10 < 2 ^ Z.of_nat (S f))%Z).
  { apply Z.div_lt_upper_bound; [lia|]. replace (Z.of_nat (S (S f))) with (Z.of_nat (S f) + 1)%Z in H by lia. rewrite Z.pow_add_r in H by lia. change (2 ^ 1)%Z with 2%Z in H. lia. }
  destruct (IH (n / 10)%Z D D') as (A & B & C). pose proof (Z.div_mod n 10 ltac:(lia)) as E. pose proof (Z.mod_pos_bound n 10 ltac:(lia)) as M. split; [lia|].
  assert (D1 : (0 < n / 10)%Z) by (apply Z.div_str_pos; lia). specialize (C D1). split.
  - replace (Z.of_nat (S (ndig_go f (n / 10)))) with (Z.of_nat (ndig_go f (n / 10)) + 1)%Z by lia. rewrite Z.pow_add_r by lia. change (10 ^ 1)%Z with 10%Z. lia.
  - intros _. replace (Z.of_nat (S (ndig_go f (n / 10))) - 1)%Z with ((Z.of_nat (ndig_go f (n / 10)) - 1) + 1)%Z by lia. rewrite Z.pow_add_r by lia. change (10 ^ 1)%Z with 10%Z. lia.
Qed.
Lemma ndig_ok n : (0 <= n)%Z -> (1 <= ndig n)%nat /\ (n < 10 ^ Z.of_nat (ndig n))%Z /\ ((0 < n)%Z -> (10 ^ (Z.of_nat (ndig n) - 1) <= n)%Z).
Proof.
  intros H. apply ndig_go_ok; [exact H|]. rewrite Nat2Z.inj_succ, Z2Nat.id by apply Z.log2_nonneg.
  destruct (Z.eq_dec n 0) as [->|N]; [cbn; lia|]. apply Z.log2_spec. lia.
Qed.
Lemma ndig_unique n k : (0 < n)%Z -> (10 ^ k <= n < 10 ^ (k + 1))%Z -> (0 <= k)%Z -> Z.of_nat (ndig n) = (k + 1)%Z.
Proof.
  intros P [A B] K. destruct (ndig_ok n ltac:(lia)) as (W & C & D). specialize (D P).
  assert (L1 : (k < Z.of_nat (ndig n))%Z) by (apply (Z.pow_lt_mono_r_iff 10); lia).
  assert (L2 : (Z.of_nat (ndig n) - 1 < k + 1)%Z) by (apply (Z.pow_lt_mono_r_iff 10); lia). lia.
Qed.

(** Reading digits. *)
Definition no_digit (s : string) : Prop := match s with "" => True | String c _ => digit_val c = None end.
Lemma digit_round d : (0 <= d < 10)%Z -> digit_val (digit_char d) = Some d.
Proof. intros H. assert (d = 0 \/ d = 1 \/ d = 2 \/ d = 3 \/ d = 4 \/ d = 5 \/ d = 6 \/ d = 7 \/ d = 8 \/ d = 9)%Z as C by lia. repeat (destruct C as [->|C]; [reflexivity|]). subst. reflexivity. Qed.
Lemma take_none acc c s : no_digit s -> take acc c s = (acc, c, s).
Proof. destruct s as [|a s]; [reflexivity|]. cbn. intros ->. reflexivity. Qed.
Lemma append_assoc (a b c : string) : (a ++ b) ++ c = a ++ (b ++ c).
Proof. induction a; cbn; [reflexivity|]. f_equal. assumption. Qed.
Lemma append_nil (a : string) : a ++ "" = a. Proof. induction a; cbn; congruence. Qed.
Lemma take_dig_app w : forall n acc c s, (0 <= n)%Z -> take acc c (dig w n ++ s) = take (acc * 10 ^ Z.of_nat w + n mod 10 ^ Z.of_nat w) (c + Z.of_nat w) s.
Proof.
  induction w as [|w IH]; intros n acc c s Hn.
  - cbn [dig append]. change (10 ^ Z.of_nat 0)%Z with 1%Z. rewrite Z.mod_1_r. f_equal; lia.
  - cbn [dig]. rewrite append_assoc, IH by (apply Z.div_pos; lia). cbn [append take]. rewrite digit_round by (apply Z.mod_pos_bound; lia).
    assert (P : (0 < 10 ^ Z.of_nat w)%Z) by (apply pow10_pos; lia).
    replace (10 ^ Z.of_nat (S w))%Z with (10 * 10 ^ Z.of_nat w)%Z by (rewrite Nat2Z.inj_succ, Z.pow_succ_r by lia; reflexivity).
    rewrite Z.rem_mul_r by lia. f_equal; lia.
Qed.
Lemma take_dig_end w n acc c s : (0 <= n)%Z -> no_digit s -> take acc c (dig w n ++ s) = (acc * 10 ^ Z.of_nat w + n mod 10 ^ Z.of_nat w, c + Z.of_nat w, s)%Z.
Proof. intros H N. rewrite take_dig_app by exact H. apply take_none, N. Qed.
Lemma take_nat n s : (0 <= n)%Z -> no_digit s -> take 0 0 (nat_text n ++ s) = (n, Z.of_nat (ndig n), s).
Proof. intros H N. unfold nat_text. rewrite take_dig_end by assumption. destruct (ndig_ok n H) as (_ & L & _). rewrite Z.mod_small by lia. reflexivity. Qed.
Lemma first_digit w n : (1 <= w)%nat -> exists d s, (0 <= d < 10)%Z /\ dig w n = String (digit_char d) s.
Proof.
  revert n. induction w as [|[|w] IH]; intros n H; [lia| |].
  - exists (n mod 10)%Z, "". split; [apply Z.mod_pos_bound; lia|reflexivity].
  - destruct (IH (n / 10)%Z ltac:(lia)) as (d & s & Hd & E). exists d, (s ++ String (digit_char (n mod 10)) ""). split; [exact Hd|].
    change (dig (S (S w)) n) with (dig (S w) (n / 10) ++ String (digit_char (n mod 10)) ""). rewrite E. reflexivity.
Qed.
Lemma digit_char_sign d s : (0 <= d < 10)%Z -> take_sign (String (digit_char d) s) = (false, String (digit_char d) s).
Proof. intros H. assert (d = 0 \/ d = 1 \/ d = 2 \/ d = 3 \/ d = 4 \/ d = 5 \/ d = 6 \/ d = 7 \/ d = 8 \/ d = 9)%Z as C by lia. repeat (destruct C as [->|C]; [reflexivity|]). subst. reflexivity. Qed.
Lemma sign_nat sg n s : (0 <= n)%Z -> take_sign (sign_text sg ++ (nat_text n ++ s)) = (sg, nat_text n ++ s).
Proof.
  intros H. destruct sg; [reflexivity|]. cbn [sign_text append]. unfold nat_text. destruct (ndig_ok n H) as (W & _). destruct (first_digit (ndig n) n W) as (d & t & Hd & ->).
  cbn [append]. apply digit_char_sign, Hd.
Qed.
Lemma strip_ok q : forall n, (0 <= n)%Z -> exists q' n', (q' <= q)%nat /\ (0 <= n')%Z /\ strip q n = dig q' n' /\ (n mod 10 ^ Z.of_nat q = n' mod 10 ^ Z.of_nat q' * 10 ^ (Z.of_nat q - Z.of_nat q'))%Z.
Proof.
  induction q as [|q IH]; intros n H.
  - exists 0%nat, 0%Z. split; [lia|]. split; [lia|]. split; [reflexivity|]. change (10 ^ Z.of_nat 0)%Z with 1%Z. rewrite Z.mod_1_r. reflexivity.
  - cbn [strip]. destruct (Z.eqb_spec (n mod 10) 0) as [E|E].
    + destruct (IH (n / 10)%Z ltac:(apply Z.div_pos; lia)) as (q' & n' & A & B & C & D). exists q', n'. split; [lia|]. split; [exact B|]. split; [exact C|].
      assert (P : (0 < 10 ^ Z.of_nat q)%Z) by (apply pow10_pos; lia).
      replace (10 ^ Z.of_nat (S q))%Z with (10 * 10 ^ Z.of_nat q)%Z by (rewrite Nat2Z.inj_succ, Z.pow_succ_r by lia; reflexivity).
      rewrite Z.rem_mul_r by lia. rewrite E, D. replace (Z.of_nat (S q) - Z.of_nat q')%Z with ((Z.of_nat q - Z.of_nat q') + 1)%Z by lia. rewrite Z.pow_add_r by lia. change (10 ^ 1)%Z with 10%Z. ring.
    + exists (S q), n. split; [lia|]. split; [exact H|]. split; [reflexivity|]. rewrite Z.sub_diag. cbn [Z.pow]. lia.
Qed.

(** ** What a text denotes *)
Definition no_start (s : string) : Prop := match s with "" => True | String c _ => digit_val c = None /\ c <> "."%char end.
Lemma no_start_digit s : no_start s -> no_digit s. Proof. destruct s; cbn; tauto. Qed.
(** Digits before and after the point, then [s]. *)
Lemma take_point n q f s : (0 <= n)%Z -> (0 <= f)%Z -> no_start s ->
  exists c1 c2, (0 < c1)%Z /\ take 0 0 (nat_text n ++ (after_point (dig q f) ++ s)) = (n, c1, after_point (dig q f) ++ s) /\
    match after_point (dig q f) ++ s with String "."%char s2' => take n 0 s2' | _ => (n, 0%Z, after_point (dig q f) ++ s) end =
      (n * 10 ^ Z.of_nat q + f mod 10 ^ Z.of_nat q, c2, s)%Z /\ c2 = Z.of_nat q.
Proof.
  intros Hn Hf Ns. destruct (ndig_ok n Hn) as (W & _). exists (Z.of_nat (ndig n)), (Z.of_nat q). split; [lia|].
  destruct q as [|q].
  - cbn [dig after_point append]. split; [apply take_nat; [exact Hn|apply no_start_digit, Ns]|]. split; [|reflexivity]. change (10 ^ Z.of_nat 0)%Z with 1%Z. rewrite Z.mod_1_r.
    replace (n * 1 + 0)%Z with n by ring. destruct s as [|c s]; [reflexivity|]. destruct Ns as [_ Nc]. destruct c as [[|] [|] [|] [|] [|] [|] [|] [|]]; try reflexivity. congruence.
  - assert (E : after_point (dig (S q) f) = String "."%char (dig (S q) f)) by (destruct (first_digit (S q) f ltac:(lia)) as (d & t & _ & ->); reflexivity).
    rewrite E. cbn [append]. split; [apply take_nat; [exact Hn|reflexivity]|]. split; [|reflexivity].
    apply take_dig_end; [exact Hf|apply no_start_digit, Ns].
Qed.
Lemma read_plain sg n q f : (0 <= n)%Z -> (0 <= f)%Z ->
  read_dec (sign_text sg ++ (nat_text n ++ after_point (dig q f))) = Some ((if sg then - (n * 10 ^ Z.of_nat q + f mod 10 ^ Z.of_nat q) else n * 10 ^ Z.of_nat q + f mod 10 ^ Z.of_nat q), - Z.of_nat q)%Z.
Proof.
  intros Hn Hf. destruct (take_point n q f "" Hn Hf I) as (c1 & c2 & C1 & T1 & T2 & C2). rewrite append_nil in T1, T2.
  unfold read_dec. rewrite (sign_nat sg n _ Hn), T1, T2, C2. destruct (Z.eqb_spec (c1 + Z.of_nat q) 0); [lia|]. reflexivity.
Qed.
Lemma read_exp e : exists c, (0 < c)%Z /\ exists s, exp_text e = String "e"%char s /\
  (let '(sg', s5) := take_sign s in let '(e', ce, s6) := take 0 0 s5 in (sg', e', ce, s6)) = ((e <? 0)%Z, Z.abs e, c, "").
Proof.
  unfold exp_text. set (b := if (Z.abs e <? 10)%Z then dig 2 (Z.abs e) else nat_text (Z.abs e)).
  assert (T : exists c, (0 < c)%Z /\ take 0 0 b = (Z.abs e, c, "")).
  { unfold b. destruct (Z.ltb_spec (Z.abs e) 10) as [L|L].
    - exists 2%Z. split; [lia|]. pose proof (take_dig_end 2 (Z.abs e) 0 0 "" ltac:(lia) I) as T. rewrite append_nil in T. rewrite T. rewrite Z.mod_small by (cbn; lia). reflexivity.
    - exists (Z.of_nat (ndig (Z.abs e))). destruct (ndig_ok (Z.abs e) ltac:(lia)) as (W & _). split; [lia|]. pose proof (take_nat (Z.abs e) "" ltac:(lia) I) as T. rewrite append_nil in T. exact T. }
  destruct T as (c & Hc & T). exists c. split; [exact Hc|]. destruct (e <? 0)%Z; eexists; (split; [reflexivity|]); cbn [append take_sign]; rewrite T; reflexivity.
Qed.
Lemma read_sci sg n q f e : (0 <= n)%Z -> (0 <= f)%Z ->
  read_dec (sign_text sg ++ (nat_text n ++ (after_point (dig q f) ++ exp_text e))) =
  Some ((if sg then - (n * 10 ^ Z.of_nat q + f mod 10 ^ Z.of_nat q) else n * 10 ^ Z.of_nat q + f mod 10 ^ Z.of_nat q), e - Z.of_nat q)%Z.
Proof.
  intros Hn Hf. destruct (read_exp e) as (c & Hc & s & Es & R). rewrite Es. assert (NS : no_start (String "e" s)) by (split; [reflexivity|discriminate]).
  destruct (take_point n q f _ Hn Hf NS) as (c1 & c2 & C1 & T1 & T2 & C2). unfold read_dec. rewrite (sign_nat sg n _ Hn), T1, T2, C2.
  destruct (Z.eqb_spec (c1 + Z.of_nat q) 0); [lia|]. destruct (take_sign s) as [sg' s5]. destruct (take 0 0 s5) as [[e' ce] s6]. injection R as -> -> -> ->.
  destruct (Z.eqb_spec c 0); [lia|]. destruct (Z.ltb_spec e 0); do 3 f_equal; lia.
Qed.
