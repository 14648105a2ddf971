(** Theory of the discrete Fourier transform. *)
From Coq Require Import Reals List Bool ZArith Lia Lra Psatz.
From Coquelicot Require Import Complex.
From Coq Require Import List.
From Verif Require Import M_dft.
Import ListNotations.
Open Scope R_scope.

(** ** Sums *)
Lemma csum_ext n f g : (forall k, (k < n)%nat -> f k = g k) -> csum n f = csum n g.
Proof. induction n as [|n IH]; intros H; cbn [csum]; [reflexivity|]. rewrite IH by (intros; apply H; lia). rewrite (H n) by lia. reflexivity. Qed.
Lemma csum_0 n : csum n (fun _ => RtoC 0) = RtoC 0.
Proof. induction n as [|n IH]; cbn [csum]; [reflexivity|]. rewrite IH. apply Cplus_0_r. Qed.
Lemma csum_plus n f g : csum n (fun k => Cplus (f k) (g k)) = Cplus (csum n f) (csum n g).
Proof. induction n as [|n IH]; cbn [csum]; [symmetry; apply Cplus_0_r|]. rewrite IH. ring. Qed.
Lemma csum_scal n c f : csum n (fun k => Cmult c (f k)) = Cmult c (csum n f).
Proof. induction n as [|n IH]; cbn [csum]; [ring|]. rewrite IH. ring. Qed.
Lemma csum_scal_r n c f : csum n (fun k => Cmult (f k) c) = Cmult (csum n f) c.
Proof. induction n as [|n IH]; cbn [csum]; [ring|]. rewrite IH. ring. Qed.
Lemma csum_swap n m f : csum n (fun i => csum m (fun j => f i j)) = csum m (fun j => csum n (fun i => f i j)).
Proof. induction n as [|n IH]; cbn [csum]; [symmetry; apply csum_0|]. rewrite IH, <- csum_plus. reflexivity. Qed.
Lemma csum_conj n f : Cconj (csum n f) = csum n (fun k => Cconj (f k)).
Proof. induction n as [|n IH]; cbn [csum]; [unfold Cconj, RtoC; cbn; f_equal; ring|]. rewrite <- IH. unfold Cconj, Cplus. cbn. f_equal. ring. Qed.
Lemma csum_const n c : csum n (fun _ => c) = Cmult (RtoC (INR n)) c.
Proof. induction n as [|n IH]; cbn [csum]; [cbn; ring|]. rewrite IH, S_INR, RtoC_plus. ring. Qed.
Lemma csum_single n j f : (j < n)%nat -> (forall k, (k < n)%nat -> k <> j -> f k = RtoC 0) -> csum n f = f j.
Proof.
  induction n as [|n IH]; intros Hj H; [lia|]. cbn [csum]. destruct (Nat.eq_dec j n) as [->|N].
  - rewrite (csum_ext n f (fun _ => RtoC 0)) by (intros; apply H; lia). rewrite csum_0. apply Cplus_0_l.
  - rewrite IH; [|lia|intros; apply H; lia]. rewrite (H n) by lia. apply Cplus_0_r.
Qed.
Lemma csum_re n f : Re (csum n f) = Re (csum n (fun k => RtoC (Re (f k)))).
Proof. induction n as [|n IH]; cbn [csum]; [reflexivity|]. unfold Cplus, Re in *. cbn [fst] in *. rewrite IH. reflexivity. Qed.
Lemma csum_S_l n f : csum (S n) f = Cplus (f O) (csum n (fun k => f (S k))).
Proof. induction n as [|n IH]; cbn [csum] in *; [ring|]. rewrite IH. ring. Qed.
Lemma csum_rev n f : csum n f = csum n (fun k => f (n - 1 - k)%nat).
Proof.
  induction n as [|n IH]; [reflexivity|]. rewrite (csum_S_l n (fun k => f (S n - 1 - k)%nat)). cbn [csum]. rewrite IH.
  replace (S n - 1 - 0)%nat with n by lia. rewrite Cplus_comm. f_equal. apply csum_ext. intros k Hk. f_equal. lia.
Qed.

(** ** The unit circle *)
Lemma cis_plus a b : cis (a + b) = Cmult (cis a) (cis b).
Proof. unfold cis, Cmult. cbn [fst snd]. rewrite cos_plus, sin_plus. f_equal; ring. Qed.
Lemma cis_0 : cis 0 = RtoC 1.
Proof. unfold cis. rewrite cos_0, sin_0. reflexivity. Qed.
Lemma cis_neg a : cis (- a) = Cconj (cis a).
Proof. unfold cis, Cconj. cbn [fst snd]. rewrite cos_neg, sin_neg. reflexivity. Qed.
Lemma cis_inv a : Cmult (cis a) (cis (- a)) = RtoC 1.
Proof. rewrite <- cis_plus, Rplus_opp_r. apply cis_0. Qed.
Lemma cis_2PI k : cis (2 * PI * INR k) = RtoC 1.
Proof. unfold cis. replace (2 * PI * INR k) with (0 + 2 * INR k * PI) by ring. rewrite cos_period, sin_period, cos_0, sin_0. reflexivity. Qed.
Lemma cis_mod a : Cmod (cis a) = 1.
Proof. unfold Cmod, cis. cbn [fst snd]. replace (cos a ^ 2 + sin a ^ 2) with 1; [apply sqrt_1|]. pose proof (sin2_cos2 a) as H. unfold Rsqr in H. lra. Qed.
Lemma cis_not_1 t : 0 < t < 2 * PI -> cis t <> RtoC 1.
Proof.
  intros [H1 H2] E. injection E as Hc Hs. assert (S : sin (t / 2) > 0) by (apply sin_gt_0; lra).
  replace t with (2 * (t / 2)) in Hc by field. rewrite cos_2a_sin in Hc. nra.
Qed.
Lemma Cconj_mult a b : Cconj (Cmult a b) = Cmult (Cconj a) (Cconj b).
Proof. unfold Cconj, Cmult. cbn [fst snd]. f_equal; ring. Qed.
Lemma Cconj_R r : Cconj (RtoC r) = RtoC r.
Proof. unfold Cconj, RtoC. cbn. f_equal. ring. Qed.
Lemma Cconj_invol a : Cconj (Cconj a) = a.
Proof. unfold Cconj. destruct a. cbn. f_equal. ring. Qed.
Lemma conj_real a : Cconj a = a -> a = RtoC (Re a).
Proof. unfold Cconj, RtoC, Re. destruct a as [x y]. cbn. intros [= H]. f_equal. lra. Qed.

Lemma geometric t n : Cmult (csum n (fun k => cis (INR k * t))) (Cminus (cis t) (RtoC 1)) = Cminus (cis (INR n * t)) (RtoC 1).
Proof.
  induction n as [|n IH]; cbn [csum]; [cbn [INR]; rewrite Rmult_0_l, cis_0; ring|].
  rewrite Cmult_comm in *. replace (Cmult (Cminus (cis t) (RtoC 1)) (Cplus (csum n (fun k => cis (INR k * t))) (cis (INR n * t)))) with
    (Cplus (Cmult (Cminus (cis t) (RtoC 1)) (csum n (fun k => cis (INR k * t)))) (Cmult (Cminus (cis t) (RtoC 1)) (cis (INR n * t)))) by ring.
  rewrite IH, S_INR. replace ((INR n + 1) * t) with (INR n * t + t) by ring. rewrite cis_plus. ring.
Qed.

(** A full period of a non-trivial harmonic sums to zero. *)
Lemma harmonic_sum N j : (0 < j < N)%nat -> csum N (fun k => cis (angle N k j)) = RtoC 0.
Proof.
  intros Hj. assert (HN : 0 < INR N) by (apply lt_0_INR; lia). assert (Hj0 : 0 < INR j) by (apply lt_0_INR; lia). assert (HjN : INR j < INR N) by (apply lt_INR; lia). pose proof PI_RGT_0 as HP.
  set (t := 2 * PI * INR j / INR N). rewrite (csum_ext N _ (fun k => cis (INR k * t))) by (intros; f_equal; unfold angle, t; field; lra).
  assert (Ht : 0 < t < 2 * PI).
  { unfold t. split; [apply Rdiv_lt_0_compat; nra|]. apply Rmult_lt_reg_r with (INR N); [exact HN|]. unfold Rdiv. rewrite Rmult_assoc, Rinv_l by lra. nra. }
  pose proof (geometric t N) as G. replace (INR N * t) with (2 * PI * INR j) in G by (unfold t; field; lra). rewrite cis_2PI in G.
  assert (D : Cminus (cis t) (RtoC 1) <> RtoC 0). { intros E. apply (cis_not_1 t Ht). replace (cis t) with (Cplus (Cminus (cis t) (RtoC 1)) (RtoC 1)) by ring. rewrite E. ring. }
  replace (Cminus (RtoC 1) (RtoC 1)) with (RtoC 0) in G by ring.
  assert (Z : forall a b : C, Cmult a b = RtoC 0 -> b <> RtoC 0 -> a = RtoC 0).
  { intros a b E Hb. replace a with (Cmult (Cmult a b) (Cinv b)) by (field; exact Hb). rewrite E. ring. }
  exact (Z _ _ G D).
Qed.

Lemma orthogonality N m n : (m < N)%nat -> (n < N)%nat ->
  csum N (fun k => Cmult (cis (angle N k m)) (cis (- angle N k n))) = (if Nat.eq_dec m n then RtoC (INR N) else RtoC 0).
Proof.
  intros Hm Hn. destruct (Nat.eq_dec m n) as [->|D].
  - rewrite (csum_ext N _ (fun _ => RtoC 1)) by (intros; apply cis_inv). rewrite csum_const. ring.
  - assert (HN : INR N <> 0) by (apply not_0_INR; lia). destruct (Nat.lt_gt_cases m n) as [[L|L] _]; [exact D| |].
    + (* conjugate of the harmonic n-m *)
      rewrite <- (Cconj_invol (csum N _)), csum_conj. rewrite (csum_ext N _ (fun k => cis (angle N k (n - m)))).
      * rewrite harmonic_sum by lia. apply Cconj_R.
      * intros k _. rewrite Cconj_mult, <- !cis_neg, Ropp_involutive, <- cis_plus. f_equal. unfold angle. rewrite minus_INR by lia. field. exact HN.
    + rewrite (csum_ext N _ (fun k => cis (angle N k (m - n)))).
      * apply harmonic_sum. lia.
      * intros k _. rewrite <- cis_plus. f_equal. unfold angle. rewrite minus_INR by lia. field. exact HN.
Qed.

Lemma angle_sym N a b : angle N a b = angle N b a.
Proof. unfold angle. rewrite (Rmult_comm (INR a)). reflexivity. Qed.

(** ** Transform and inverse *)
Lemma dft_length x : length (dft x) = length x.
Proof. unfold dft. rewrite map_length, seq_length. reflexivity. Qed.
Lemma idft_length x : length (idft x) = length x.
Proof. unfold idft. rewrite map_length, seq_length. reflexivity. Qed.
Lemma nth_map_seq {A} (f : nat -> A) n k d : (k < n)%nat -> nth k (map f (seq 0 n)) d = f k.
Proof. intros H. rewrite (nth_indep _ d (f O)) by (rewrite map_length, seq_length; exact H). rewrite map_nth, seq_nth by exact H. reflexivity. Qed.
Lemma dft_nth x k : (k < length x)%nat -> nth k (dft x) (RtoC 0) = csum (length x) (fun n => Cmult (nth n x (RtoC 0)) (cis (- angle (length x) k n))).
Proof. intros H. unfold dft. rewrite nth_map_seq by exact H. reflexivity. Qed.
Lemma idft_nth x k : (k < length x)%nat -> nth k (idft x) (RtoC 0) = Cmult (RtoC (/ INR (length x))) (csum (length x) (fun n => Cmult (nth n x (RtoC 0)) (cis (angle (length x) n k)))).
Proof. intros H. unfold idft. rewrite nth_map_seq by exact H. reflexivity. Qed.

Lemma list_eq_nth (l1 l2 : list C) : length l1 = length l2 -> (forall k, (k < length l1)%nat -> nth k l1 (RtoC 0) = nth k l2 (RtoC 0)) -> l1 = l2.
Proof.
  revert l2. induction l1 as [|a l1 IH]; intros [|b l2] H K; try discriminate; [reflexivity|]. f_equal; [exact (K O ltac:(cbn; lia))|].
  apply IH; [cbn in H; lia|]. intros k Hk. exact (K (S k) ltac:(cbn; lia)).
Qed.

Theorem idft_dft x : idft (dft x) = x.
Proof.
  apply list_eq_nth; [rewrite idft_length, dft_length; reflexivity|]. intros m Hm. rewrite idft_length, dft_length in Hm.
  rewrite idft_nth by (rewrite dft_length; exact Hm). rewrite dft_length. set (N := length x) in *.
  rewrite (csum_ext N _ (fun k => csum N (fun n => Cmult (nth n x (RtoC 0)) (Cmult (cis (angle N k m)) (cis (- angle N k n)))))).
  2:{ intros k Hk. rewrite dft_nth by exact Hk. fold N. rewrite <- csum_scal_r. apply csum_ext. intros n _. ring. }
  rewrite csum_swap. rewrite (csum_ext N _ (fun n => Cmult (nth n x (RtoC 0)) (if Nat.eq_dec m n then RtoC (INR N) else RtoC 0))).
  2:{ intros n Hn. rewrite csum_scal, orthogonality by assumption. reflexivity. }
  rewrite (csum_single N m) by (first [exact Hm|intros k _ Hk; destruct (Nat.eq_dec m k); [congruence|ring]]).
  destruct (Nat.eq_dec m m); [|congruence]. rewrite RtoC_inv; [field|]; [intros E; apply RtoC_inj in E|]; (assert (INR N <> 0) by (apply not_0_INR; lia); tauto).
Qed.

Theorem dft_idft x : dft (idft x) = x.
Proof.
  apply list_eq_nth; [rewrite dft_length, idft_length; reflexivity|]. intros m Hm. rewrite dft_length, idft_length in Hm.
  rewrite dft_nth by (rewrite idft_length; exact Hm). rewrite idft_length. set (N := length x) in *.
  rewrite (csum_ext N _ (fun k => Cmult (RtoC (/ INR N)) (csum N (fun n => Cmult (nth n x (RtoC 0)) (Cmult (cis (angle N k n)) (cis (- angle N k m))))))).
  2:{ intros k Hk. rewrite idft_nth by exact Hk. fold N. rewrite <- Cmult_assoc, <- csum_scal_r. f_equal. apply csum_ext. intros n _. rewrite (angle_sym N n k), (angle_sym N m k). ring. }
  rewrite csum_scal, csum_swap. rewrite (csum_ext N _ (fun n => Cmult (nth n x (RtoC 0)) (if Nat.eq_dec n m then RtoC (INR N) else RtoC 0))).
  2:{ intros n Hn. rewrite csum_scal, orthogonality by assumption. reflexivity. }
  rewrite (csum_single N m) by (first [exact Hm|intros k _ Hk; destruct (Nat.eq_dec k m); [congruence|ring]]).
  destruct (Nat.eq_dec m m); [|congruence]. rewrite RtoC_inv; [field|]; [intros E; apply RtoC_inj in E|]; (assert (INR N <> 0) by (apply not_0_INR; lia); tauto).
Qed.

(** ** Symmetry *)
Lemma angle_reflect N k n : (k <= N)%nat -> (0 < N)%nat -> cis (angle N (N - k) n) = cis (- angle N k n).
Proof.
  intros Hk HN. assert (INR N <> 0) by (apply not_0_INR; lia). unfold angle. rewrite minus_INR by exact Hk.
  replace (2 * PI * ((INR N - INR k) * INR n) / INR N) with (2 * PI * INR n + - (2 * PI * (INR k * INR n) / INR N)) by (field; assumption).
  rewrite cis_plus, cis_2PI. ring.
Qed.

Lemma nth_RtoC (x : list R) n : nth n (map RtoC x) (RtoC 0) = RtoC (nth n x 0).
Proof. rewrite (map_nth RtoC x 0 n). reflexivity. Qed.

Theorem dft_real_symmetric (x : list R) k : (0 < k < length x)%nat ->
  nth (length x - k) (dft (map RtoC x)) (RtoC 0) = Cconj (nth k (dft (map RtoC x)) (RtoC 0)).
Proof.
  intros Hk. rewrite !dft_nth by (rewrite map_length; lia). rewrite map_length, csum_conj. apply csum_ext. intros n Hn.
  rewrite Cconj_mult, nth_RtoC, Cconj_R. f_equal. rewrite !cis_neg, angle_reflect by lia. rewrite cis_neg, Cconj_invol. reflexivity.
Qed.

Definition symmetric (X : list C) : Prop :=
  (X <> [] -> Cconj (nth 0 X (RtoC 0)) = nth 0 X (RtoC 0)) /\
  forall k, (0 < k < length X)%nat -> nth (length X - k) X (RtoC 0) = Cconj (nth k X (RtoC 0)).

Lemma dft_symmetric (x : list R) : symmetric (dft (map RtoC x)).
Proof.
  split.
  - intros H. assert (L : (0 < length x)%nat) by (destruct x; [cbn in H; congruence|cbn; lia]). rewrite !dft_nth by (rewrite map_length; exact L). rewrite csum_conj. apply csum_ext. intros n _.
    rewrite Cconj_mult, nth_RtoC, Cconj_R. f_equal. unfold angle. cbn [INR]. rewrite Rmult_0_l, Rmult_0_r. unfold Rdiv. rewrite Rmult_0_l, Ropp_0, cis_0. apply Cconj_R.
  - intros k Hk. rewrite dft_length, map_length in Hk. rewrite dft_length, map_length. apply dft_real_symmetric, Hk.
Qed.

Lemma csum_reflect N f : (0 < N)%nat -> csum N f = Cplus (f O) (csum (N - 1) (fun k => f (N - 1 - k)%nat)).
Proof.
  intros H. destruct N as [|N]; [lia|]. rewrite csum_S_l. f_equal. rewrite csum_rev. replace (S N - 1)%nat with N by lia. apply csum_ext. intros k Hk. f_equal. lia.
Qed.

(** The inverse transform of a symmetric spectrum is real. *)
Theorem idft_symmetric_real X n : symmetric X -> (n < length X)%nat -> Cconj (nth n (idft X) (RtoC 0)) = nth n (idft X) (RtoC 0).
Proof.
  intros [H0 Hs] Hn. rewrite idft_nth by exact Hn. rewrite Cconj_mult, Cconj_R. f_equal. rewrite csum_conj. set (N := length X) in *.
  assert (HX : X <> []) by (destruct X; [cbn in Hn; unfold N in Hn; cbn in Hn; lia|discriminate]).
  rewrite (csum_reflect N (fun k => Cconj (Cmult (nth k X (RtoC 0)) (cis (angle N k n))))) by lia.
  destruct N as [|N'] eqn:EN; [lia|]. rewrite csum_S_l. f_equal.
  - rewrite Cconj_mult, (H0 HX). f_equal. unfold angle. cbn [INR]. rewrite Rmult_0_l, Rmult_0_r. unfold Rdiv. rewrite Rmult_0_l, cis_0. apply Cconj_R.
  - replace (S N' - 1)%nat with N' by lia. apply csum_ext. intros k Hk. rewrite Cconj_mult. replace (N' - k)%nat with (S N' - S k)%nat by lia.
    rewrite (Hs (S k)) by lia. rewrite Cconj_invol. f_equal. rewrite angle_reflect by lia. rewrite cis_neg, Cconj_invol. reflexivity.
Qed.

(** ** Linearity *)
Lemma dft_linear a b x y : length x = length y ->
  dft (map (fun p => Cplus (Cmult a (fst p)) (Cmult b (snd p))) (combine x y)) =
  map (fun p => Cplus (Cmult a (fst p)) (Cmult b (snd p))) (combine (dft x) (dft y)).
Proof.
  intros H. assert (LC : length (combine x y) = length x) by (rewrite combine_length; lia).
  assert (NC : forall (u v : list C) k, length u = length v -> nth k (map (fun p => Cplus (Cmult a (fst p)) (Cmult b (snd p))) (combine u v)) (RtoC 0) = Cplus (Cmult a (nth k u (RtoC 0))) (Cmult b (nth k v (RtoC 0)))).
  { clear. induction u as [|c u IH]; intros [|d v] [|k] L; try discriminate; cbn [combine map nth fst snd]; try ring. apply IH. cbn in L. lia. }
  apply list_eq_nth; [rewrite dft_length, !map_length, !combine_length, !dft_length; lia|]. intros k Hk. rewrite dft_length, map_length, LC in Hk.
  rewrite dft_nth by (rewrite map_length, LC; exact Hk). rewrite map_length, LC. rewrite NC by (rewrite !dft_length; exact H). rewrite !dft_nth by lia. rewrite <- H.
  rewrite <- !csum_scal, <- csum_plus. apply csum_ext. intros n _. rewrite NC by exact H. ring.
Qed.

Lemma dft_scale (c : R) (x : list R) k : (k < length x)%nat -> nth k (dft (map RtoC (map (Rmult c) x))) (RtoC 0) = Cmult (RtoC c) (nth k (dft (map RtoC x)) (RtoC 0)).
Proof.
  intros Hk. rewrite !dft_nth by (rewrite ?map_length; exact Hk). rewrite !map_length, <- csum_scal. apply csum_ext. intros n Hn. rewrite !nth_RtoC.
  replace (nth n (map (Rmult c) x) 0) with (c * nth n x 0); [rewrite RtoC_mult; ring|]. rewrite (nth_indep (map (Rmult c) x) 0 (c * 0)) by (rewrite map_length; exact Hn). rewrite map_nth. reflexivity.
Qed.

(** ** Parseval *)
Lemma Cmod2 (z : C) : Cmult z (Cconj z) = RtoC (Cmod z ^ 2).
Proof. unfold Cmult, Cconj, RtoC, Cmod. cbn [fst snd]. rewrite pow2_sqrt by nra. f_equal; ring. Qed.

Theorem parseval x : csum (length x) (fun k => RtoC (Cmod (nth k (dft x) (RtoC 0)) ^ 2)) = Cmult (RtoC (INR (length x))) (csum (length x) (fun n => RtoC (Cmod (nth n x (RtoC 0)) ^ 2))).
Proof.
  set (N := length x).
  rewrite (csum_ext N _ (fun k => csum N (fun m => csum N (fun n => Cmult (Cmult (nth m x (RtoC 0)) (Cconj (nth n x (RtoC 0)))) (Cmult (cis (angle N k n)) (cis (- angle N k m))))))).
  2:{ intros k Hk. rewrite <- Cmod2, dft_nth by exact Hk. fold N. rewrite csum_conj, <- csum_scal_r. apply csum_ext. intros m _. rewrite <- csum_scal. apply csum_ext. intros n _.
      rewrite Cconj_mult, (cis_neg (angle N k n)), Cconj_invol. ring. }
  rewrite csum_swap. rewrite <- csum_scal. apply csum_ext. intros m Hm. rewrite csum_swap.
  rewrite (csum_ext N _ (fun n => Cmult (Cmult (nth m x (RtoC 0)) (Cconj (nth n x (RtoC 0)))) (if Nat.eq_dec n m then RtoC (INR N) else RtoC 0))).
  2:{ intros n Hn. rewrite csum_scal, orthogonality by assumption. reflexivity. }
  rewrite (csum_single N m) by (first [exact Hm|intros k _ Hk; destruct (Nat.eq_dec k m); [congruence|ring]]).
  destruct (Nat.eq_dec m m); [|congruence]. rewrite Cmod2. ring.
Qed.
