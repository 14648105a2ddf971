(** C119: texts of objects; C120: names made of the time. *)
From Coq Require Import ZArith List Bool String Ascii Reals Lia Lra.
From Flocq Require Import Core Relative IEEE754.BinarySingleNaN.
From Verif Require Import Base M_float P_float M_text P_text Prop_text M_textfile.
Import ListNotations.
Open Scope string_scope.
Open Scope list_scope.
Open Scope R_scope.

(** ** C119 *)
Lemma blanks_length n : String.length (blanks n) = n. Proof. induction n; cbn; congruence. Qed.
Lemma center_length w s : String.length (center w s) = Nat.max w (String.length s).
Proof. unfold center. rewrite !append_length, !blanks_length. set (l := String.length s). pose proof (Nat.div_le_upper_bound (w - l) 2 (w - l) ltac:(lia) ltac:(lia)). lia. Qed.
Lemma after_length p n : String.length (after_point (dig p n)) = (if Nat.eqb p 0 then 0 else S p)%nat.
Proof. destruct p as [|p]; [reflexivity|]. destruct (first_digit (S p) n ltac:(lia)) as (d & s & _ & E). pose proof (dig_length (S p) n) as L. rewrite E in *. cbn [after_point append String.length Nat.eqb] in *. lia. Qed.
Lemma fmt_f_length p x k : fin x = true -> (0 <= k)%Z -> 0 <= val x <= IZR (10 ^ k) -> neg x = false -> (1 <= p)%nat -> (String.length (fmt_f p x) <= Z.to_nat k + 2 + p)%nat.
Proof.
  intros F K [A B] Ng Hp. unfold fmt_f. rewrite (special_fin x _ F), Ng. cbn [sign_text append]. rewrite append_length, after_length. destruct (Nat.eqb_spec p 0) as [Q0|Q0]; [lia|]. clear Q0.
  assert (P : (0 < 10 ^ Z.of_nat p)%Z) by (apply pow10_pos; lia). pose proof (pow10_pos k K) as Pk.
  assert (N0 : (0 <= scaled x (Z.of_nat p))%Z) by (rewrite (scaled_ok x _ F); apply Znearest_nonneg, Rmult_le_pos; [apply Rabs_pos|apply bpow_ge_0]).
  assert (U : (scaled x (Z.of_nat p) <= 10 ^ k * 10 ^ Z.of_nat p)%Z).
  { rewrite (scaled_ok x _ F). rewrite <- (near_IZR (10 ^ k * 10 ^ Z.of_nat p)). apply near_le. rewrite mult_IZR, (IZR_pow10 (Z.of_nat p)) by lia. apply Rmult_le_compat_r; [apply bpow_ge_0|]. rewrite Rabs_pos_eq by exact A. exact B. }
  set (n := scaled x (Z.of_nat p)) in *. assert (D : (0 <= n / 10 ^ Z.of_nat p <= 10 ^ k)%Z).
  { split; [apply Z.div_pos; lia|]. apply Z.div_le_upper_bound; [lia|]. lia. }
  unfold nat_text. rewrite dig_length. destruct (ndig_ok (n / 10 ^ Z.of_nat p) ltac:(lia)) as (W & _ & C). destruct (Z.eq_dec (n / 10 ^ Z.of_nat p) 0) as [Z0|Z0]; [rewrite Z0; cbn; lia|].
  specialize (C ltac:(lia)). assert ((Z.of_nat (ndig (n / 10 ^ Z.of_nat p)) - 1 <= k)%Z); [|lia]. apply (Z.pow_le_mono_r_iff 10); lia.
Qed.
Lemma fmt_d_length x k s : fmt_d x = Ok s -> (0 <= k)%Z -> 0 <= val x <= IZR (10 ^ k) -> neg x = false -> (String.length s <= Z.to_nat k + 1)%nat.
Proof.
  intros E K [A B] Ng. assert (F : fin x = true) by (destruct x; try discriminate; reflexivity). pose proof (abs_val x F) as V. rewrite Rabs_pos_eq in V by exact A.
  assert (E' : s = nat_text (mant x * 2 ^ Z.max (expo x) 0 / 2 ^ Z.max (- expo x) 0)).
  { destruct x as [b|b| |b m e H]; try discriminate F; unfold fmt_d in E; rewrite Ng in E; cbn [andb sign_text append] in E; injection E as <-; reflexivity. }
  subst s. set (d := (2 ^ Z.max (- expo x) 0)%Z). assert (Pd : (0 < d)%Z) by (apply pow2_pos; lia). assert (Pu : (0 < 2 ^ Z.max (expo x) 0)%Z) by (apply pow2_pos; lia). pose proof (mant_pos x) as Mp. pose proof (pow10_pos k K) as Pk.
  assert (U : (mant x * 2 ^ Z.max (expo x) 0 <= 10 ^ k * d)%Z).
  { apply le_IZR. rewrite !mult_IZR. unfold d. rewrite !IZR_pow2 by lia. rewrite (split_bpow radix2 (expo x)) in V. pose proof (bpow_gt_0 radix2 (Z.max (- expo x) 0)) as Pb.
    apply (Rmult_le_reg_r (/ bpow radix2 (Z.max (- expo x) 0))); [apply Rinv_0_lt_compat, Pb|]. rewrite (Rmult_assoc (IZR (10 ^ k))), Rinv_r, Rmult_1_r by lra. rewrite Rmult_assoc, <- V. exact B. }
  assert (D : (0 <= mant x * 2 ^ Z.max (expo x) 0 / d <= 10 ^ k)%Z) by (split; [apply Z.div_pos; nia|apply Z.div_le_upper_bound; lia]).
  set (n := (mant x * 2 ^ Z.max (expo x) 0 / d)%Z) in *. unfold nat_text. rewrite dig_length. destruct (ndig_ok n ltac:(lia)) as (W & _ & C). destruct (Z.eq_dec n 0) as [Z0|Z0]; [rewrite Z0; cbn; lia|].
  specialize (C ltac:(lia)). assert ((Z.of_nat (ndig n) - 1 <= k)%Z); [|lia]. apply (Z.pow_le_mono_r_iff 10); lia.
Qed.

(** A layer whose numbers are not excessive. *)
Definition plain (hi : R) (x : f64) : Prop := fin x = true /\ neg x = false /\ val x <= hi.
Definition plain_row (r : layer_row) : Prop :=
  plain 1000000 (l_thk r) /\ plain 1000000 (l_vs r) /\ plain 10 (l_damp r) /\ plain 1000000 (l_rho r) /\ plain 1000000 (l_mat r).
Lemma plain_range hi x : plain hi x -> 0 <= val x <= hi.
Proof. intros (F & N & H). split; [|exact H]. rewrite (val_sign x F), N. apply Rabs_pos. Qed.

(** The table is refused exactly for a material number that is not finite; its lines are the heading, one line per layer in order, and the velocity. *)
Theorem C119_table : forall rs vs30, ((exists t, profile_text rs vs30 = Ok t) <-> Forall (fun r => fin (l_mat r) = true) rs) /\
  forall t, profile_text rs vs30 = Ok t -> List.length t = (List.length rs + 8)%nat /\
    forall i, (i < List.length rs)%nat -> row_text (nth i rs (mkrow f0 f0 f0 f0 f0)) = Ok (nth (4 + i) t "").
Proof.
  intros rs vs30.
  assert (A : forall r, (exists s, row_text r = Ok s) <-> fin (l_mat r) = true).
  { intros [a b c d m]. unfold row_text. cbn [l_mat l_thk l_vs l_damp l_rho]. destruct m as [sg|sg| |sg mm ee bb]; cbn [fmt_d bind]; split; intros H; try reflexivity; try discriminate H; try (destruct H as [zz H]; discriminate H); eexists; reflexivity. }
  assert (B : (exists ts, rows_text rs = Ok ts) <-> Forall (fun r => fin (l_mat r) = true) rs).
  { induction rs as [|r rs IH]; [split; [constructor|exists []; reflexivity]|]. cbn [rows_text]. split.
    - intros [ts H]. destruct (row_text r) as [s|e] eqn:E; [|discriminate H]. cbn [bind] in H. destruct (rows_text rs) as [ts'|e]; [|discriminate H]. constructor; [apply A; eauto|apply IH; eauto].
    - intros H. inversion H as [|? ? H1 H2]; subst. apply A in H1. destruct H1 as [s ->]. cbn [bind]. apply IH in H2. destruct H2 as [ts ->]. cbn [bind]. eauto. }
  assert (C : forall ts, rows_text rs = Ok ts -> List.length ts = List.length rs /\ forall i, (i < List.length rs)%nat -> row_text (nth i rs (mkrow f0 f0 f0 f0 f0)) = Ok (nth i ts "")).
  { clear B. induction rs as [|r rs IH]; intros ts H; [injection H as <-; split; [reflexivity|cbn; lia]|]. cbn [rows_text] in H. destruct (row_text r) as [s|e] eqn:E; [|discriminate H]. cbn [bind] in H.
    destruct (rows_text rs) as [ts'|e]; [|discriminate H]. cbn [bind] in H. injection H as <-. destruct (IH ts' eq_refl) as [L N]. split; [cbn; lia|]. intros [|i] Hi; [exact E|]. cbn [nth]. apply N. cbn in Hi. lia. }
  unfold profile_text. split.
  - rewrite <- B. split; intros [t H]; [destruct (rows_text rs) as [ts|e]; [eauto|discriminate H]|rewrite H; cbn [bind]; eauto].
  - intros t H. destruct (rows_text rs) as [ts|e]; [|discriminate H]. destruct (C ts eq_refl) as [L N]. cbn [bind] in H. injection H as <-. split; [cbn [List.length app]; rewrite app_length; cbn; lia|].
    intros i Hi. rewrite (N i Hi). f_equal. cbn [app Nat.add nth]. rewrite app_nth1 by lia. reflexivity.
Qed.
Lemma neg_sign x : neg x = Bsign x. Proof. destruct x; reflexivity. Qed.
(** Every line is exactly as wide as the heading, so the columns are aligned. *)
Local Transparent fmul.
Lemma fmul_plain x : plain 10 x -> fin (fmul x (lit 100 0)) = true /\ neg (fmul x (lit 100 0)) = false /\ 0 <= val (fmul x (lit 100 0)) <= IZR (10 ^ 3).
Proof.
  intros Px. destruct (plain_range _ _ Px) as [A B]. destruct Px as (F & N & _). destruct (lit_ok 100 0 ltac:(cbn; lia) ltac:(lia)) as [F1 V1]. change (bpow radix2 0) with 1 in V1. rewrite Rmult_1_r in V1.
  assert (D0 : dbl 0) by apply dbl_0. assert (D1 : dbl 1000) by (replace 1000 with (val (lit 1000 0)); [apply val_dbl|]; destruct (lit_ok 1000 0 ltac:(cbn; lia) ltac:(lia)) as [_ V]; rewrite V; change (bpow radix2 0) with 1; ring).
  assert (Rg : 0 <= rnd (val x * val (lit 100 0)) <= 1000) by (apply rnd_between; [exact D0|exact D1|]; rewrite V1; lra).
  destruct (fmul_fin x (lit 100 0) F F1) as [Fm Vm]; [rewrite Rabs_pos_eq by lra; eapply Rle_lt_trans; [apply Rg|]; unfold top64; apply Rlt_le_trans with (bpow radix2 10); [change (bpow radix2 10) with 1024; lra|apply bpow_le; lia]|].
  split; [exact Fm|]. rewrite Vm. change (IZR (10 ^ 3)) with 1000. split; [|exact Rg].
  pose proof (Bmult_correct 53 1024 prec_ok emax_ok mode_NE x (lit 100 0)) as C. rewrite Rlt_bool_true in C.
  - destruct C as (_ & _ & C). rewrite neg_sign. unfold fmul. rewrite C by (unfold fin, fmul in Fm; destruct (Bmult mode_NE x (lit 100 0)); try reflexivity; discriminate Fm). rewrite <- !neg_sign, N. vm_compute. reflexivity.
  - change (Rabs (rnd (val x * val (lit 100 0))) < top64). rewrite Rabs_pos_eq by lra. eapply Rle_lt_trans; [apply Rg|]. unfold top64. apply Rlt_le_trans with (bpow radix2 10); [change (bpow radix2 10) with 1024; lra|apply bpow_le; lia].
Qed.
Local Opaque fmul.
Theorem C119_width : forall rs vs30 t, Forall plain_row rs -> profile_text rs vs30 = Ok t ->
  forall i, (1 <= i <= List.length rs + 4)%nat -> String.length (nth i t "") = 69%nat.
Proof.
  intros rs vs30 t P E i Hi. destruct (C119_table rs vs30) as [_ C]. destruct (C t E) as [L N].
  assert (Q : (i = 1 \/ i = 2 \/ i = 3 \/ (4 <= i < List.length rs + 4) \/ i = List.length rs + 4)%nat) by lia.
  assert (E2 : exists ts, t = ["" ; ruler; heading; ruler] ++ ts ++ [ruler; ""; ("(Vs30 = " ++ fmt_f 1 vs30 ++ " m/s)")%string; ""] /\ List.length ts = List.length rs).
  { unfold profile_text in E. destruct (rows_text rs) as [ts|e]; [|discriminate E]. exists ts. cbn [bind] in E. injection E as <-. split; [reflexivity|]. cbn [List.length app] in L. rewrite app_length in L. cbn in L. lia. }
  destruct E2 as (ts & -> & Lt). destruct Q as [->|[->|[->|[Q|Q]]]]; try reflexivity.
  - specialize (N (i - 4)%nat ltac:(lia)). replace (4 + (i - 4))%nat with i in N by lia. set (x := nth i _ "") in *. rewrite Forall_forall in P. assert (Hi4 : (i - 4 < List.length rs)%nat) by lia. pose proof (P (nth (i - 4) rs (mkrow f0 f0 f0 f0 f0)) (nth_In _ _ Hi4)) as Pr.
    destruct (nth (i - 4) rs (mkrow f0 f0 f0 f0 f0)) as [a b c d m]. destruct Pr as (Pa & Pb & Pc & Pd & Pm). cbn [l_thk l_vs l_damp l_rho l_mat] in *. unfold row_text in N. cbn [l_thk l_vs l_damp l_rho l_mat] in N.
    destruct (fmt_d m) as [sm|e] eqn:Em; [|discriminate N]. cbn [bind] in N. injection N as <-. do 5 (rewrite ?append_length, ?center_length; cbn [append String.length]).
    pose proof (fmt_f_length 2 a 6 (proj1 Pa) ltac:(lia) (plain_range _ _ Pa) (proj1 (proj2 Pa)) ltac:(lia)) as La. pose proof (fmt_f_length 1 b 6 (proj1 Pb) ltac:(lia) (plain_range _ _ Pb) (proj1 (proj2 Pb)) ltac:(lia)) as Lb.
    destruct (fmul_plain c Pc) as (Fc & Nc & Rc). pose proof (fmt_f_length 3 _ 3 Fc ltac:(lia) Rc Nc ltac:(lia)) as Lc.
    pose proof (fmt_f_length 1 d 6 (proj1 Pd) ltac:(lia) (plain_range _ _ Pd) (proj1 (proj2 Pd)) ltac:(lia)) as Ld. pose proof (fmt_d_length m 6 sm Em ltac:(lia) (plain_range _ _ Pm) (proj1 (proj2 Pm))) as Lm.
    change (Z.to_nat 6) with 6%nat in *. change (Z.to_nat 3) with 3%nat in *. rewrite !Nat.max_l by lia. reflexivity.
  - subst i. replace (List.length rs + 4)%nat with (4 + List.length ts)%nat by lia. cbn [app Nat.add nth]. rewrite app_nth2 by lia. rewrite Nat.sub_diag. reflexivity.
Qed.

(** A number less than half a unit of the last decimal is printed as zero: a thin layer looks like the half space. *)
Theorem C119_thin : forall p x, (1 <= p)%nat -> fin x = true -> neg x = false -> val x < / 2 * tenpow (- Z.of_nat p) -> fmt_f p x = ("0." ++ dig p 0)%string.
Proof.
  intros p x Hp F N H. assert (A : 0 <= val x) by (rewrite (val_sign x F), N; apply Rabs_pos).
  assert (S0 : scaled x (Z.of_nat p) = 0%Z).
  { rewrite (scaled_ok x _ F). apply Znearest_imp. rewrite Rminus_0_r, Rabs_pos_eq by (apply Rmult_le_pos; [apply Rabs_pos|apply bpow_ge_0]). rewrite Rabs_pos_eq by exact A.
    replace (/ 2) with (/ 2 * tenpow (- Z.of_nat p) * tenpow (Z.of_nat p)) by (rewrite Rmult_assoc, <- bpow_plus; replace (- Z.of_nat p + Z.of_nat p)%Z with 0%Z by lia; change (tenpow 0) with 1; ring).
    apply Rmult_lt_compat_r; [apply bpow_gt_0|exact H]. }
  unfold fmt_f. rewrite (special_fin x _ F), N, S0. rewrite Z.mod_0_l, Z.div_0_l by (pose proof (pow10_pos (Z.of_nat p) ltac:(lia)); lia). cbn [sign_text append].
  destruct (first_digit p 0 Hp) as (d & s & _ & E). rewrite E. reflexivity.
Qed.

(** Velocities of 100 m/s and more are in scientific notation with two digits in the text of an SVM, off by up to five per cent. *)
Theorem C119_svm : forall vs30 z1, fin vs30 = true -> fin z1 = true -> 100 <= val vs30 ->
  (exists a b, svm_text vs30 z1 = ("Vs30 = " ++ a ++ "e+" ++ b)%string) /\
  exists v, text_value (fmt_g 2 vs30) = Some v /\ Rabs (v - val vs30) <= / 20 * val vs30.
Proof.
  intros vs30 z1 F Fz H. assert (N : val vs30 <> 0) by lra. split.
  - assert (E : exists a b, fmt_g 2 vs30 = (a ++ "e+" ++ b)%string).
    { unfold fmt_g. rewrite (special_fin _ _ F). destruct (Z.eqb_spec (mant vs30) 0) as [Q|_]; [exfalso; apply N, (mant_0 _ F), Q|].
      destruct (exp10_ok vs30 F N) as [L U]. assert (E2 : (2 <= exp10 vs30)%Z).
      { destruct (Z.le_gt_cases 2 (exp10 vs30)) as [|G]; [assumption|]. exfalso. rewrite Rabs_pos_eq in U by lra. assert (tenpow (exp10 vs30 + 1) <= tenpow 2) by (apply bpow_le; lia). change (tenpow 2) with 100 in *. lra. }
      assert (S : exists n e, sci 2 vs30 = (n, e) /\ (2 <= e)%Z) by (unfold sci; destruct (_ =? _)%Z; eexists; eexists; (split; [reflexivity|lia])).
      destruct S as (n & e & -> & He). replace ((e <? -4)%Z || (Z.of_nat 2 <=? e)%Z)%bool with true by (symmetry; apply orb_true_iff; right; apply Z.leb_le; lia).
      unfold exp_text. destruct (Z.ltb_spec e 0); [lia|]. eexists (sign_text (neg vs30) ++ point (2 - 1) n)%string, _. rewrite append_assoc. cbn [append]. reflexivity. }
    destruct E as (a & b & E). unfold svm_text. rewrite E. exists a, (b ++ " m/s, z1 = " ++ fmt_g 2 z1 ++ " m")%string. rewrite !append_assoc. reflexivity.
  - destruct (C117_error 2 vs30 ltac:(lia) F) as (v & T & E). exists v. split; [exact T|]. rewrite (Rabs_pos_eq (val vs30)) in E by lra. change (tenpow (1 - Z.of_nat 2)) with (/ 10) in E. lra.
Qed.
(** What stands in a line: cells between bars, without the blanks around them. *)
Fixpoint cells (s : string) : list string :=
  match s with
  | "" => [""]
  | String c s' => if Ascii.eqb c "|" then "" :: cells s' else match cells s' with w :: ws => String c w :: ws | [] => [String c ""] end
  end.
Fixpoint trim_left (s : string) : string := match s with String " "%char s' => trim_left s' | _ => s end.
Fixpoint trim_right (s : string) : string :=
  match s with "" => "" | String c s' => match trim_right s' with "" => if Ascii.eqb c " " then "" else String c "" | t => String c t end end.
Definition trim (s : string) : string := trim_right (trim_left s).
Fixpoint has (c : ascii) (s : string) : bool := match s with "" => false | String a s' => (Ascii.eqb a c || has c s')%bool end.
Lemma has_app c a b : has c (a ++ b) = (has c a || has c b)%bool. Proof. induction a as [|x a IH]; [reflexivity|]. cbn [append has]. rewrite IH. apply orb_assoc. Qed.
Lemma has_dig c w : forall n, digit_val c = None -> has c (dig w n) = false.
Proof.
  induction w as [|w IH]; intros n H; [reflexivity|]. cbn [dig]. rewrite has_app, IH by exact H. cbn [has orb]. rewrite orb_false_r. apply Ascii.eqb_neq. intros <-. rewrite digit_round in H by (apply Z.mod_pos_bound; lia). discriminate H.
Qed.
Lemma has_blanks c n : c <> " "%char -> has c (blanks n) = false.
Proof. intros H. induction n; [reflexivity|]. cbn [blanks has]. rewrite IHn, orb_false_r. apply Ascii.eqb_neq. congruence. Qed.
Lemma cells_one a : has "|" a = false -> cells a = [a].
Proof. induction a as [|c a IH]; [reflexivity|]. cbn [has cells]. intros H. apply orb_false_iff in H. destruct H as [H1 H2]. rewrite H1, (IH H2). reflexivity. Qed.
Lemma cells_app a b : has "|" a = false -> cells (a ++ String "|" b) = a :: cells b.
Proof. induction a as [|c a IH]; intros H; [reflexivity|]. cbn [append has cells] in *. apply orb_false_iff in H. destruct H as [H1 H2]. rewrite H1, (IH H2). reflexivity. Qed.
Lemma trim_left_blanks n s : trim_left (blanks n ++ s) = trim_left s. Proof. induction n; [reflexivity|exact IHn]. Qed.
Lemma trim_right_blanks n : trim_right (blanks n) = "". Proof. induction n; [reflexivity|]. cbn [blanks trim_right]. rewrite IHn. reflexivity. Qed.
Lemma trim_right_app s n : has " " s = false -> trim_right (s ++ blanks n) = s.
Proof.
  induction s as [|c s IH]; intros H; [apply trim_right_blanks|]. cbn [append has trim_right] in *. apply orb_false_iff in H. destruct H as [H1 H2]. rewrite (IH H2). destruct s; [rewrite H1|]; reflexivity.
Qed.
Lemma trim_center w s : has " " s = false -> s <> "" -> trim (center w s) = s.
Proof.
  intros H N. unfold trim, center. rewrite trim_left_blanks. destruct s as [|c s]; [congruence|]. pose proof H as H'. cbn [has] in H'. apply orb_false_iff in H'. destruct H' as [H1 _].
  replace (trim_left (String c s ++ blanks (w - String.length (String c s) - (w - String.length (String c s)) / 2))) with (String c s ++ blanks (w - String.length (String c s) - (w - String.length (String c s)) / 2))%string; [apply trim_right_app, H|].
  cbn [append]. apply Ascii.eqb_neq in H1. destruct c as [[|] [|] [|] [|] [|] [|] [|] [|]]; try reflexivity. congruence.
Qed.
Lemma has_center c w s : c <> " "%char -> has c (center w s) = has c s.
Proof. intros H. unfold center. rewrite !has_app, !has_blanks by exact H. rewrite orb_false_r. reflexivity. Qed.
Lemma fmt_f_has c p x : fin x = true -> digit_val c = None -> c <> "-"%char -> c <> "."%char -> has c (fmt_f p x) = false.
Proof.
  intros F D M P. unfold fmt_f. rewrite (special_fin x _ F), !has_app. unfold nat_text. rewrite has_dig by exact D. assert (S : has c (sign_text (neg x)) = false) by (destruct (neg x); [cbn [sign_text has]; rewrite orb_false_r; apply Ascii.eqb_neq; congruence|reflexivity]).
  rewrite S. cbn [orb]. unfold after_point. set (t := dig p _). assert (T : has c t = false) by (apply has_dig, D). destruct t as [|a t]; [reflexivity|]. cbn [append]. change (has c (String "." (String a t))) with (Ascii.eqb "." c || has c (String a t))%bool. rewrite T, orb_false_r. apply Ascii.eqb_neq. congruence.
Qed.
Lemma fmt_f_nonempty p x : fin x = true -> fmt_f p x <> "".
Proof.
  intros F E. assert (L : String.length (fmt_f p x) = 0%nat) by (rewrite E; reflexivity). unfold fmt_f in L. rewrite (special_fin x _ F), !append_length in L. unfold nat_text in L. rewrite dig_length in L.
  assert (0 <= scaled x (Z.of_nat p) / 10 ^ Z.of_nat p)%Z. { apply Z.div_pos; [|apply pow10_pos; lia]. rewrite (scaled_ok x _ F). apply Znearest_nonneg, Rmult_le_pos; [apply Rabs_pos|apply bpow_ge_0]. }
  destruct (ndig_ok _ H) as (W & _). lia.
Qed.
Lemma fmt_d_ok x s : fmt_d x = Ok s -> fin x = true /\ (forall c, digit_val c = None -> c <> "-"%char -> has c s = false) /\ s <> "" /\ text_value s = Some (IZR (Ztrunc (val x))).
Proof.
  intros E. assert (F : fin x = true) by (destruct x; try discriminate; reflexivity). split; [exact F|].
  set (n := (mant x * 2 ^ Z.max (expo x) 0 / 2 ^ Z.max (- expo x) 0)%Z). assert (Pd : (0 < 2 ^ Z.max (- expo x) 0)%Z) by (apply pow2_pos; lia). assert (Pu : (0 < 2 ^ Z.max (expo x) 0)%Z) by (apply pow2_pos; lia). pose proof (mant_pos x) as Mp.
  assert (N0 : (0 <= n)%Z) by (apply Z.div_pos; nia).
  assert (Fl : Zfloor (Rabs (val x)) = n).
  { rewrite (abs_val x F), (split_bpow radix2 (expo x)), <- !IZR_pow2, <- Rmult_assoc, <- mult_IZR by lia. apply (Zfloor_div _ _). lia. }
  assert (E' : s = (sign_text (neg x && negb (n =? 0)%Z) ++ nat_text n)%string).
  { destruct x as [b|b| |b m e H]; try discriminate F; unfold fmt_d in E; injection E as <-; reflexivity. }
  clear E. subst s. set (b := (neg x && negb (n =? 0)%Z)%bool). destruct (ndig_ok n N0) as (W & _). split; [|split].
  - intros c D M. rewrite has_app. unfold nat_text. rewrite has_dig by exact D. rewrite orb_false_r. destruct b; [|reflexivity]. cbn [sign_text has]. rewrite orb_false_r. apply Ascii.eqb_neq. congruence.
  - intros Q. assert (L : String.length (sign_text b ++ nat_text n) = 0%nat) by (rewrite Q; reflexivity). rewrite append_length in L. unfold nat_text in L. rewrite dig_length in L. lia.
  - pose proof (read_plain b n 0 0 N0 ltac:(lia)) as Rd. cbn [dig after_point] in Rd. rewrite append_nil in Rd. unfold text_value. rewrite Rd. f_equal. change (tenpow (- Z.of_nat 0)) with 1. rewrite Rmult_1_r, Z.mod_0_l by (cbn; lia). change (10 ^ Z.of_nat 0)%Z with 1%Z. f_equal. rewrite Z.add_0_r, Z.mul_1_r.
    rewrite (val_signed x F). unfold b. assert (A : (0 <= Rabs (val x))) by apply Rabs_pos. destruct (neg x); cbn [signed andb].
    + rewrite Ztrunc_opp, Ztrunc_floor, Fl by exact A. destruct (Z.eqb_spec n 0) as [->|Q]; reflexivity.
    + rewrite Ztrunc_floor, Fl by exact A. reflexivity.
Qed.

(** Each line shows the numbers of its layer: thickness, velocity, damping in per cent, density and material number, rounded to the decimals shown. *)
Theorem C119_numbers : forall r s, fin (l_thk r) = true -> fin (l_vs r) = true -> fin (fmul (l_damp r) (lit 100 0)) = true -> fin (l_rho r) = true -> row_text r = Ok s ->
  exists a b c d m, map trim (cells s) = [a; b; c; d; m] /\
    text_value a = Some (nearest_fixed 2 (val (l_thk r))) /\ text_value b = Some (nearest_fixed 1 (val (l_vs r))) /\ text_value c = Some (nearest_fixed 3 (val (fmul (l_damp r) (lit 100 0)))) /\
    text_value d = Some (nearest_fixed 1 (val (l_rho r))) /\ text_value m = Some (IZR (Ztrunc (val (l_mat r)))).
Proof.
  intros r s Fa Fb Fc Fd E. unfold row_text in E. destruct (fmt_d (l_mat r)) as [sm|e] eqn:Em; [|discriminate E]. cbn [bind] in E. injection E as <-. destruct (fmt_d_ok _ _ Em) as (Fm & Hm & Nm & Vm).
  exists (fmt_f 2 (l_thk r)), (fmt_f 1 (l_vs r)), (fmt_f 3 (fmul (l_damp r) (lit 100 0))), (fmt_f 1 (l_rho r)), sm.
  split; [|repeat split; try (apply C117_fixed; assumption); exact Vm].
  assert (HB : forall p w x, fin x = true -> has "|" (center w (fmt_f p x)) = false) by (intros p w x F; rewrite has_center by discriminate; apply fmt_f_has; [exact F|reflexivity|discriminate|discriminate]).
  assert (HT : forall p w x, fin x = true -> trim (center w (fmt_f p x)) = fmt_f p x) by (intros p w x F; apply trim_center; [apply fmt_f_has; [exact F|reflexivity|discriminate|discriminate]|apply fmt_f_nonempty, F]).
  change ("|" ++ ?z)%string with (String "|" z). rewrite !cells_app by (apply HB; assumption). rewrite cells_one by (rewrite has_center by discriminate; apply Hm; [reflexivity|discriminate]). cbn [map].
  rewrite !HT by assumption. rewrite trim_center by (first [exact Nm|apply Hm; [reflexivity|discriminate]]). reflexivity.
Qed.
(** The texts of a motion and of a spectrum. *)
Theorem C119_motion : forall n dt g gal v d t, (0 <= n)%Z -> Forall (fun x => fin x = true) [dt; g; gal; v; d; t] ->
  exists a b c e f h k, motion_text n dt g gal v d t = ("n_pts=" ++ a ++ ", dt=" ++ b ++ "s, PGA=" ++ c ++ "g=" ++ e ++ "gal, PGV=" ++ f ++ "cm/s, PGD=" ++ h ++ "cm, T5_95=" ++ k ++ "s")%string /\
    text_value a = Some (IZR n) /\ text_value b = Some (nearest_digits 4 (val dt)) /\ text_value c = Some (nearest_digits 3 (val g)) /\ text_value e = Some (nearest_digits 3 (val gal)) /\
    text_value f = Some (nearest_digits 3 (val v)) /\ text_value h = Some (nearest_digits 3 (val d)) /\ text_value k = Some (nearest_digits 3 (val t)).
Proof.
  intros n dt g gal v d t Hn F. repeat match goal with H : Forall _ (_ :: _) |- _ => inversion H; clear H; subst end.
  exists (nat_text n), (fmt_g 4 dt), (fmt_g 3 g), (fmt_g 3 gal), (fmt_g 3 v), (fmt_g 3 d), (fmt_g 3 t). split; [reflexivity|].
  split; [|repeat split; apply C117_general; (lia || assumption)].
  pose proof (read_plain false n 0 0 Hn ltac:(lia)) as Rd. cbn [dig after_point sign_text append] in Rd. rewrite append_nil in Rd. unfold text_value. rewrite Rd. f_equal. change (tenpow (- Z.of_nat 0)) with 1. rewrite Rmult_1_r, Z.mod_0_l by (cbn; lia). change (10 ^ Z.of_nat 0)%Z with 1%Z. f_equal. lia.
Qed.
Theorem C119_spectrum : forall n df lo hi, (0 <= n)%Z -> fin df = true -> fin lo = true -> fin hi = true ->
  exists a b c d, spectrum_text df n lo hi = ("df = " ++ a ++ " Hz, n_pts = " ++ b ++ ", f_min = " ++ c ++ " Hz, f_max = " ++ d ++ " Hz")%string /\
    text_value a = Some (nearest_fixed 2 (val df)) /\ text_value b = Some (IZR n) /\ text_value c = Some (nearest_fixed 2 (val lo)) /\ text_value d = Some (nearest_fixed 2 (val hi)).
Proof.
  intros n df lo hi Hn F1 F2 F3. exists (fmt_f 2 df), (nat_text n), (fmt_f 2 lo), (fmt_f 2 hi). split; [reflexivity|]. split; [apply C117_fixed, F1|]. split; [|split; apply C117_fixed; assumption].
  pose proof (read_plain false n 0 0 Hn ltac:(lia)) as Rd. cbn [dig after_point sign_text append] in Rd. rewrite append_nil in Rd. unfold text_value. rewrite Rd. f_equal. change (tenpow (- Z.of_nat 0)) with 1. rewrite Rmult_1_r, Z.mod_0_l by (cbn; lia). change (10 ^ Z.of_nat 0)%Z with 1%Z. f_equal. lia.
Qed.

Definition ex_rows : list layer_row := [mkrow (lit 5 0) (lit 180 0) (lit 5764607523034235 (-58)) (lit 1850 0) (lit 1 0); mkrow (lit 1 (-9)) (lit 760 0) (lit 5764607523034235 (-59)) (lit 2000 0) (lit 2 0); mkrow f0 (lit 900 0) f0 (lit 2100 0) f0].
Example C119_instance : Forall plain_row ex_rows /\ fmt_f 2 (lit 1 (-9)) = "0.00" /\ svm_text (lit 350 0) (lit 120 0) = "Vs30 = 3.5e+02 m/s, z1 = 1.2e+02 m" /\ svm_text (lit 354 0) (lit 120 0) = svm_text (lit 350 0) (lit 120 0) /\
  row_text (nth 0 ex_rows (mkrow f0 f0 f0 f0 f0)) = Ok "   5.00   |  180.0   |    2.000    |      1850.0      |      1       ".
Proof.
  split; [|do 3 (split; [vm_compute; reflexivity|]); vm_compute; reflexivity].
  assert (L : forall m e hi, (0 <= m <= 2 ^ 53)%Z -> (-1074 <= e <= 970)%Z -> neg (lit m e) = false -> IZR m * bpow radix2 e <= hi -> plain hi (lit m e)).
  { intros m e hi Hm He N H. destruct (lit_ok m e ltac:(lia) He) as [F V]. split; [exact F|]. split; [exact N|]. rewrite V. exact H. }
  assert (Z0 : forall hi, 0 <= hi -> plain hi f0) by (intros hi H; split; [reflexivity|]; split; [reflexivity|]; rewrite f0_val; exact H).
  assert (B0 : bpow radix2 0 = 1) by reflexivity. assert (B9 : bpow radix2 (-9) = / 512) by reflexivity. assert (B58 : bpow radix2 (-58) = / 288230376151711744) by reflexivity. assert (B59 : bpow radix2 (-59) = / 576460752303423488) by reflexivity.
  unfold ex_rows. do 3 (apply Forall_cons; [split; [|split; [|split; [|split]]]; cbn [l_thk l_vs l_damp l_rho l_mat]; first [apply Z0; lra|apply L; [lia|lia|vm_compute; reflexivity|rewrite ?B0, ?B9, ?B58, ?B59; lra]]|]). apply Forall_nil.
Qed.

(** ** C120 *)
Definition valid (t : moment) : Prop :=
  (0 <= t_year t < 10000 /\ 0 <= t_month t < 100 /\ 0 <= t_day t < 100 /\ 0 <= t_hour t < 100 /\ 0 <= t_min t < 100 /\ 0 <= t_sec t < 100)%Z.
Definition fields (t : moment) : list Z := [t_year t; t_month t; t_day t; t_hour t; t_min t; t_sec t].
(** Chronological order. *)
Fixpoint before (a b : list Z) : Prop := match a, b with x :: a', y :: b' => (x < y)%Z \/ x = y /\ before a' b' | _, _ => False end.
Lemma char_compare a b : (0 <= a < 10)%Z -> (0 <= b < 10)%Z -> Ascii.compare (digit_char a) (digit_char b) = (a ?= b)%Z.
Proof.
  intros A B. assert (CA : (a = 0 \/ a = 1 \/ a = 2 \/ a = 3 \/ a = 4 \/ a = 5 \/ a = 6 \/ a = 7 \/ a = 8 \/ a = 9)%Z) by lia. assert (CB : (b = 0 \/ b = 1 \/ b = 2 \/ b = 3 \/ b = 4 \/ b = 5 \/ b = 6 \/ b = 7 \/ b = 8 \/ b = 9)%Z) by lia.
  repeat (destruct CA as [->|CA]; [repeat (destruct CB as [->|CB]; [reflexivity|]); subst b; reflexivity|]). subst a. repeat (destruct CB as [->|CB]; [reflexivity|]). subst b. reflexivity.
Qed.
Lemma dig_compare w : forall a b s t, (0 <= a < 10 ^ Z.of_nat w)%Z -> (0 <= b < 10 ^ Z.of_nat w)%Z ->
  String.compare (dig w a ++ s) (dig w b ++ t) = match (a ?= b)%Z with Eq => String.compare s t | c => c end.
Proof.
  induction w as [|w IH]; intros a b s t A B; [change (10 ^ Z.of_nat 0)%Z with 1%Z in *; assert (a = 0 /\ b = 0)%Z as [-> ->] by lia; reflexivity|].
  cbn [dig]. rewrite !append_assoc. replace (10 ^ Z.of_nat (S w))%Z with (10 * 10 ^ Z.of_nat w)%Z in * by (rewrite Nat2Z.inj_succ, Z.pow_succ_r by lia; reflexivity).
  assert (DA : (0 <= a / 10 < 10 ^ Z.of_nat w)%Z) by (split; [apply Z.div_pos; lia|apply Z.div_lt_upper_bound; lia]). assert (DB : (0 <= b / 10 < 10 ^ Z.of_nat w)%Z) by (split; [apply Z.div_pos; lia|apply Z.div_lt_upper_bound; lia]).
  rewrite IH by assumption. pose proof (Z.div_mod a 10 ltac:(lia)) as Ea. pose proof (Z.div_mod b 10 ltac:(lia)) as Eb. pose proof (Z.mod_pos_bound a 10 ltac:(lia)) as Ma. pose proof (Z.mod_pos_bound b 10 ltac:(lia)) as Mb.
  cbn [append String.compare]. rewrite char_compare by assumption. destruct (Z.compare_spec (a / 10) (b / 10)) as [Q|Q|Q].
  - destruct (Z.compare_spec (a mod 10) (b mod 10)) as [P|P|P].
    + replace (a ?= b)%Z with Eq by (symmetry; apply Z.compare_eq_iff; lia). reflexivity.
    + replace (a ?= b)%Z with Lt by (symmetry; apply Z.compare_lt_iff; lia). reflexivity.
    + replace (a ?= b)%Z with Gt by (symmetry; apply Z.compare_gt_iff; lia). reflexivity.
  - replace (a ?= b)%Z with Lt by (symmetry; apply Z.compare_lt_iff; lia). reflexivity.
  - replace (a ?= b)%Z with Gt by (symmetry; apply Z.compare_gt_iff; lia). reflexivity.
Qed.
Lemma same_compare p s t : String.compare (p ++ s) (p ++ t) = String.compare s t.
Proof. induction p as [|c p IH]; [reflexivity|]. cbn [append String.compare]. assert (E : Ascii.compare c c = Eq) by (unfold Ascii.compare; apply N.compare_refl). rewrite E. exact IH. Qed.
(** Texts of moments are ordered like the moments, and different for different seconds; they have 19 characters; those for file names have no colon and no blank. *)
Theorem C120_order : forall b t u, valid t -> valid u ->
  (String.compare (time_text b t) (time_text b u) = Lt <-> before (fields t) (fields u)) /\ (time_text b t = time_text b u <-> t = u) /\ String.length (time_text b t) = 19%nat.
Proof.
  intros b [y1 o1 d1 h1 m1 s1] [y2 o2 d2 h2 m2 s2] V W. unfold valid in V, W. cbn [t_year t_month t_day t_hour t_min t_sec] in V, W.
  assert (C : String.compare (time_text b (mkmoment y1 o1 d1 h1 m1 s1)) (time_text b (mkmoment y2 o2 d2 h2 m2 s2)) =
    match (y1 ?= y2)%Z with Eq => match (o1 ?= o2)%Z with Eq => match (d1 ?= d2)%Z with Eq => match (h1 ?= h2)%Z with Eq => match (m1 ?= m2)%Z with Eq => (s1 ?= s2)%Z | c => c end | c => c end | c => c end | c => c end | c => c end).
  { unfold time_text. cbn [t_year t_month t_day t_hour t_min t_sec]. assert (P2 : (10 ^ Z.of_nat 2 = 100)%Z) by reflexivity. assert (P4 : (10 ^ Z.of_nat 4 = 10000)%Z) by reflexivity.
    rewrite dig_compare by (rewrite P4; lia). destruct (y1 ?= y2)%Z; try reflexivity. rewrite same_compare, dig_compare by (rewrite P2; lia). destruct (o1 ?= o2)%Z; try reflexivity.
    rewrite same_compare, dig_compare by (rewrite P2; lia). destruct (d1 ?= d2)%Z; try reflexivity. rewrite same_compare, dig_compare by (rewrite P2; lia). destruct (h1 ?= h2)%Z; try reflexivity.
    rewrite same_compare, dig_compare by (rewrite P2; lia). destruct (m1 ?= m2)%Z; try reflexivity. rewrite same_compare. rewrite <- (append_nil (dig 2 s1)), <- (append_nil (dig 2 s2)), dig_compare by (rewrite P2; lia). destruct (s1 ?= s2)%Z; reflexivity. }
  split; [|split].
  - rewrite C. unfold fields, before. cbn [t_year t_month t_day t_hour t_min t_sec].
    destruct (Z.compare_spec y1 y2); [|split; [lia|reflexivity]|split; [discriminate|lia]]. destruct (Z.compare_spec o1 o2); [|split; [lia|reflexivity]|split; [discriminate|lia]].
    destruct (Z.compare_spec d1 d2); [|split; [lia|reflexivity]|split; [discriminate|lia]]. destruct (Z.compare_spec h1 h2); [|split; [lia|reflexivity]|split; [discriminate|lia]].
    destruct (Z.compare_spec m1 m2); [|split; [lia|reflexivity]|split; [discriminate|lia]]. destruct (Z.compare_spec s1 s2); [split; [discriminate|lia]|split; [lia|reflexivity]|split; [discriminate|lia]].
  - split; [|intros ->; reflexivity]. intros E. assert (R0 : String.compare (time_text b (mkmoment y1 o1 d1 h1 m1 s1)) (time_text b (mkmoment y2 o2 d2 h2 m2 s2)) = Eq) by (rewrite E; apply (same_compare _ "" "") || (rewrite <- (append_nil (time_text _ _)); apply same_compare)).
    rewrite C in R0. destruct (Z.compare_spec y1 y2); try discriminate R0. destruct (Z.compare_spec o1 o2); try discriminate R0. destruct (Z.compare_spec d1 d2); try discriminate R0. destruct (Z.compare_spec h1 h2); try discriminate R0. destruct (Z.compare_spec m1 m2); try discriminate R0. destruct (Z.compare_spec s1 s2); try discriminate R0. subst. reflexivity.
  - unfold time_text. rewrite !append_length, !dig_length. destruct b; reflexivity.
Qed.
Theorem C120_filename : forall t c, In c [":"; " "; "/"; "\"]%char -> has c (time_text true t) = false.
Proof. intros t c H. unfold time_text. rewrite !has_app. repeat (destruct H as [<-|H]; [rewrite !has_dig by reflexivity; reflexivity|]). destruct H. Qed.
Example C120_instance : valid (mkmoment 2026 11 17 4 5 59) /\ time_text true (mkmoment 2026 11 17 4 5 59) = "2026-11-17_04-05-59" /\ time_text false (mkmoment 2026 11 17 4 5 59) = "2026-11-17 04:05:59".
Proof. split; [unfold valid; cbn; lia|]. split; vm_compute; reflexivity. Qed.
