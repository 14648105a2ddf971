(** Specifications and lemmas for the goodness-of-fit scores. *)
From Coq Require Import Reals List Bool ZArith Lia Lra.
From Verif Require Import Base M_generic P_generic M_motion P_motion M_gof.
Import ListNotations.
Open Scope R_scope.

(** What is used of the error function. *)
Definition erf_like (erf : R -> R) : Prop :=
  erf 0 = 0 /\ (forall x y, x < y -> erf x < erf y) /\ (forall x, erf (- x) = - erf x) /\ (forall x, erf x < 1).

(** The hypotheses can be met. *)
Example erf_like_instance : erf_like (fun x => 2 / PI * atan x).
Proof.
  pose proof PI_RGT_0 as HP. assert (H2 : 0 < 2 / PI) by (apply Rdiv_lt_0_compat; lra).
  repeat split.
  - rewrite atan_0. lra.
  - intros x y H. apply Rmult_lt_compat_l; [exact H2|]. apply atan_increasing, H.
  - intros x. rewrite atan_opp. lra.
  - intros x. pose proof (atan_bound x) as [_ B]. apply Rmult_lt_reg_l with (PI / 2); [lra|].
    replace (PI / 2 * (2 / PI * atan x)) with (atan x) by (field; lra). lra.
Qed.

Lemma eps64_pos : 0 < eps64. Proof. unfold eps64. apply Rinv_0_lt_compat, pow_lt. lra. Qed.
Lemma eps2_pos : 0 < eps2. Proof. unfold eps2. apply Rinv_0_lt_compat, pow_lt. lra. Qed.
Lemma eps64_lt_eps2 : eps64 < eps2.
Proof. unfold eps64, eps2. apply Rinv_lt_contravar; [apply Rmult_lt_0_compat; apply pow_lt; lra|]. lra. Qed.
Lemma eps2_lt_1 : eps2 < 1.
Proof. unfold eps2. rewrite <- Rinv_1. apply Rinv_lt_contravar; [rewrite Rmult_1_l; apply pow_lt; lra|]. lra. Qed.

Lemma rela_diff_spec m s : 0 < m -> 0 < s ->
  (rela_diff m s = 0 <-> m = s) /\ (0 < rela_diff m s <-> m < s) /\ -1 < rela_diff m s /\
  (forall s', s < s' -> rela_diff m s < rela_diff m s').
Proof.
  intros Hm Hs. pose proof eps2_lt_1 as H1. unfold rela_diff. destruct (Rltb_spec m eps2) as [H|H].
  - repeat split; intros; lra.
  - assert (Hi : 0 < / m) by (apply Rinv_0_lt_compat, Hm).
    assert (E : forall x, (x - m) / m = x * / m - 1) by (intros; field; lra). repeat split; intros.
    + rewrite E in *. assert (s * / m = 1) by lra. apply Rmult_eq_compat_r with (r := m) in H2. rewrite Rmult_assoc, Rinv_l in H2 by lra. lra.
    + subst s. rewrite E. rewrite Rinv_r by lra. lra.
    + apply Rmult_lt_reg_r with (/ m); [exact Hi|]. rewrite Rinv_r by lra. rewrite E in *. lra.
    + rewrite E. apply Rmult_lt_compat_r with (r := / m) in H0; [|exact Hi]. rewrite Rinv_r in H0 by lra. lra.
    + rewrite E. assert (0 < s * / m) by (apply Rmult_lt_0_compat; assumption). lra.
    + rewrite !E. apply Rplus_lt_compat_r. apply Rmult_lt_compat_r; assumption.
Qed.

Lemma nsum_all_fin l : (forall x, In x l -> exists r, x = Fin r) -> exists r, nsum l = Fin r.
Proof.
  induction l as [|x l IH]; intros H; [eexists; reflexivity|]. destruct (H x (or_introl eq_refl)) as [r ->].
  destruct IH as [y E]; [intros; apply H; right; assumption|]. cbn. rewrite E. eexists; reflexivity.
Qed.

Lemma nsum_zero n : nsum (repeat (Fin 0) n) = Fin 0.
Proof. induction n as [|n IH]; [reflexivity|]. cbn. rewrite IH. f_equal. lra. Qed.
Lemma nmean_zero n : (0 < n)%nat -> nmean (repeat (Fin 0) n) = Fin 0.
Proof.
  intros Hn. destruct n as [|n]; [lia|]. cbn [repeat]. unfold nmean. change (Fin 0 :: repeat (Fin 0) n) with (repeat (Fin 0) (S n)).
  rewrite nsum_zero. f_equal. unfold Rdiv. ring.
Qed.

(** A finite mean lies between bounds of the elements. *)
Lemma nsum_bounds l : forall y lo hi, nsum l = Fin y -> (forall r, In (Fin r) l -> lo <= r <= hi) -> INR (length l) * lo <= y <= INR (length l) * hi.
Proof.
  induction l as [|x l IH]; intros y lo hi E H; cbn [nsum] in E.
  - injection E as <-. cbn. lra.
  - destruct x as [r| | |]; try discriminate. destruct (nsum l) as [z| | |] eqn:Ez; try discriminate. injection E as <-.
    specialize (IH z lo hi eq_refl (fun r' Hr => H r' (or_intror Hr))). pose proof (H r (or_introl eq_refl)).
    change (length (Fin r :: l)) with (S (length l)). rewrite S_INR. lra.
Qed.
Lemma nmean_bounds l y lo hi : nmean l = Fin y -> (forall r, In (Fin r) l -> lo <= r <= hi) -> lo <= y <= hi.
Proof.
  unfold nmean. destruct l as [|x l]; [discriminate|]. set (L := x :: l). destruct (nsum L) as [z| | |] eqn:E; try discriminate.
  intros [= <-] H. pose proof (nsum_bounds L z lo hi E H) as [A B]. assert (HN : 0 < INR (length L)) by (apply lt_0_INR; cbn; lia).
  split; apply Rmult_le_reg_r with (INR (length L)); try exact HN; unfold Rdiv; rewrite ?Rmult_assoc, Rinv_l, Rmult_1_r by lra; lra.
Qed.

(** A finite mean needs finite elements. *)
Lemma nsum_fin_inv l : forall y, nsum l = Fin y -> forall x, In x l -> exists r, x = Fin r.
Proof.
  induction l as [|a l IH]; intros y E x Hx; [destruct Hx|]. cbn [nsum] in E. destruct a as [r| | |]; try discriminate.
  destruct (nsum l) as [z| | |] eqn:Ez; try discriminate. destruct Hx as [<-|Hx]; [eexists; reflexivity|eapply IH; eauto].
Qed.

Lemma nth_map_d {A B} (f : A -> B) d0 d l k : (k < length l)%nat -> nth k (map f l) d = f (nth k l d0).
Proof. intros H. rewrite (nth_indep _ d (f d0)) by (rewrite map_length; exact H). apply map_nth. Qed.

(** ** Cauchy-Schwarz *)
Definition dot (a b : list R) : R := rsum (map (fun p => fst p * snd p) (combine a b)).
Definition sq (a : list R) : R := rsum (map (fun x => x * x) a).

Lemma sq_nonneg a : 0 <= sq a.
Proof. unfold sq. induction a as [|x a IH]; cbn; [lra|]. nra. Qed.

(** |x b - y a|^2 expanded. *)
Lemma sq_comb : forall a b x y, length a = length b ->
  sq (map (fun p => x * snd p - y * fst p) (combine a b)) = x * x * sq b - 2 * x * y * dot a b + y * y * sq a.
Proof.
  unfold sq, dot. induction a as [|u a IH]; intros [|v b] x y H; try discriminate; cbn [combine map rsum fst snd].
  - lra.
  - specialize (IH b x y ltac:(cbn in H; lia)). rewrite IH. ring.
Qed.

Lemma sq_zero_iff a : sq a = 0 <-> forall x, In x a -> x = 0.
Proof.
  unfold sq. induction a as [|u a IH]; cbn; [split; [intros _ x []|reflexivity]|]. pose proof (sq_nonneg a) as Q. unfold sq in Q. split.
  - intros E x [<-|Hx]; [nra|]. apply IH; [nra|exact Hx].
  - intros H. assert (u = 0) by (apply H; left; reflexivity). subst. assert (rsum (map (fun x => x * x) a) = 0) by (apply IH; intros; apply H; right; assumption). lra.
Qed.

Lemma dot_zero a : forall b, (forall x, In x a -> x = 0) -> dot a b = 0.
Proof.
  unfold dot. induction a as [|u a IH]; intros [|v b] H; cbn; auto. rewrite IH by (intros; apply H; right; assumption).
  rewrite (H u (or_introl eq_refl)). lra.
Qed.

Lemma cauchy_schwarz a b : length a = length b -> dot a b * dot a b <= sq a * sq b.
Proof.
  intros H. pose proof (sq_nonneg (map (fun p => sq a * snd p - dot a b * fst p) (combine a b))) as P. rewrite sq_comb in P by exact H.
  pose proof (sq_nonneg a) as Pa. destruct (Req_dec (sq a) 0) as [Z|N].
  - rewrite Z in *. assert (Hd : dot a b = 0).
    { apply dot_zero. apply sq_zero_iff. exact Z. }
    rewrite Hd. lra.
  - assert (0 < sq a) by lra. apply Rmult_le_reg_l with (sq a); [assumption|]. nra.
Qed.

(** Equality exactly for proportional vectors. *)
Lemma cauchy_schwarz_eq a b : length a = length b -> 0 < sq a ->
  (dot a b * dot a b = sq a * sq b <-> exists c, b = map (fun x => c * x) a).
Proof.
  intros H Ha. split.
  - intros E. exists (dot a b / sq a).
    assert (Z : sq (map (fun p => sq a * snd p - dot a b * fst p) (combine a b)) = 0) by (rewrite sq_comb by exact H; nra).
    rewrite sq_zero_iff in Z. apply (list_ext 0); [rewrite map_length; lia|]. intros k Hk.
    rewrite (nth_map_d _ 0) by lia.
    assert (Hin : In (sq a * nth k b 0 - dot a b * nth k a 0) (map (fun p => sq a * snd p - dot a b * fst p) (combine a b))).
    { apply in_map_iff. exists (nth k a 0, nth k b 0). split; [reflexivity|]. rewrite <- combine_nth by exact H. apply nth_In. rewrite combine_length. lia. }
    apply Z in Hin. apply Rmult_eq_reg_l with (sq a); [|lra]. replace (sq a * (dot a b / sq a * nth k a 0)) with (dot a b * nth k a 0) by (field; lra). lra.
  - intros [c ->]. assert (E1 : dot a (map (fun x => c * x) a) = c * sq a).
    { unfold dot, sq. clear H Ha. induction a as [|u a IH]; cbn; [lra|]. rewrite IH. ring. }
    assert (E2 : sq (map (fun x => c * x) a) = c * c * sq a).
    { unfold sq. clear H Ha E1. induction a as [|u a IH]; cbn; [lra|]. rewrite IH. ring. }
    rewrite E1, E2. ring.
Qed.

(** ** Filling slots *)
Lemma fill_length f32 l : forall slots k, (k + length l <= length slots)%nat -> length (fill f32 slots k l) = length slots.
Proof.
  induction l as [|x l IH]; intros slots k H; cbn [fill]; [reflexivity|]. cbn in H.
  assert (L : length (firstn k slots ++ f32 x :: skipn (S k) slots) = length slots).
  { rewrite app_length, firstn_length. cbn [length]. rewrite skipn_length. lia. }
  rewrite IH by lia. exact L.
Qed.

Lemma replace_nth (slots : list num) k v i : (k < length slots)%nat ->
  nth i (firstn k slots ++ v :: skipn (S k) slots) NaN = if Nat.eqb i k then v else nth i slots NaN.
Proof.
  intros H. destruct (Nat.eqb_spec i k) as [->|Hne].
  - rewrite app_nth2; rewrite firstn_length_le by lia; [|lia]. rewrite Nat.sub_diag. reflexivity.
  - rewrite <- (firstn_skipn k slots) at 3. destruct (Nat.lt_ge_cases i k) as [Hlt|Hge].
    + rewrite !app_nth1 by (rewrite firstn_length_le; lia). reflexivity.
    + rewrite !app_nth2; rewrite ?firstn_length_le by lia; try lia.
      replace (i - k)%nat with (S (i - S k)) by lia. cbn [nth].
      destruct (skipn k slots) as [|y t] eqn:E.
      * apply (f_equal (@length _)) in E. rewrite skipn_length in E. cbn in E. lia.
      * cbn [nth]. f_equal. change (skipn (S k) slots) with (skipn (1 + k) slots).
        replace (skipn (1 + k) slots) with (skipn 1 (skipn k slots)); [rewrite E; reflexivity|].
        clear. revert slots. induction k as [|k IH]; intros [|z slots]; try reflexivity. cbn [skipn Nat.add] in *. apply IH.
Qed.

Lemma fill_nth f32 l : forall slots k i, (k + length l <= length slots)%nat ->
  nth i (fill f32 slots k l) NaN = if (Nat.leb k i && Nat.ltb i (k + length l))%bool then f32 (nth (i - k) l NaN) else nth i slots NaN.
Proof.
  induction l as [|x l IH]; intros slots k i H; cbn [fill length].
  - replace (Nat.leb k i && Nat.ltb i (k + 0))%bool with false; [reflexivity|]. symmetry. apply andb_false_iff.
    destruct (Nat.leb_spec k i), (Nat.ltb_spec i (k + 0)); auto; lia.
  - cbn in H. rewrite IH.
    2:{ rewrite app_length, firstn_length. cbn [length]. rewrite skipn_length. lia. }
    rewrite replace_nth by lia.
    destruct (Nat.eqb_spec i k) as [->|Hne].
    + rewrite (proj2 (Nat.leb_gt (S k) k)) by lia. cbn [andb]. rewrite Nat.leb_refl, (proj2 (Nat.ltb_lt k (k + S (length l)))) by lia. cbn [andb]. rewrite Nat.sub_diag. reflexivity.
    + replace (Nat.leb (S k) i && Nat.ltb i (S k + length l))%bool with (Nat.leb k i && Nat.ltb i (k + S (length l)))%bool.
      * destruct (Nat.leb k i && Nat.ltb i (k + S (length l)))%bool eqn:E; [|reflexivity]. apply andb_prop in E as [E _]. apply Nat.leb_le in E.
        replace (i - k)%nat with (S (i - S k)) by lia. reflexivity.
      * destruct (Nat.leb_spec k i), (Nat.ltb_spec i (k + S (length l))), (Nat.leb_spec (S k) i), (Nat.ltb_spec i (S k + length l)); cbn; auto; lia.
Qed.
