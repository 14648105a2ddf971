(** Lemmas about circular filtering. *)
From Coq Require Import Reals List Bool ZArith Lia Lra FunctionalExtensionality.
From Verif Require Import Base M_generic P_generic M_motion P_motion M_wavelet.
Import ListNotations.
Open Scope list_scope.
Open Scope R_scope.

(** ** filtering of functions on the integers: [sum_m a[m] v(z - s m)] *)
Fixpoint cv (a : list R) (s : Z) (v : Z -> R) (z : Z) : R :=
  match a with [] => 0 | x :: a' => x * v z + cv a' s v (z - s)%Z end.
Definition per (N : Z) (v : Z -> R) : Prop := forall z, v (z + N)%Z = v z.

Lemma cv_shift a s v d z : cv a s (fun y => v (y + d)%Z) z = cv a s v (z + d)%Z.
Proof. revert z. induction a as [|x a IH]; intros z; cbn; [reflexivity|]. rewrite IH. do 2 f_equal. lia. Qed.
Lemma cv_per a s v N : per N v -> per N (cv a s v).
Proof. intros H z. revert z. induction a as [|x a IH]; intros z; cbn; [reflexivity|]. rewrite H. replace (z + N - s)%Z with (z - s + N)%Z by lia. rewrite IH. reflexivity. Qed.
Lemma cv_ext a s v v' z : (forall y, v y = v' y) -> cv a s v z = cv a s v' z.
Proof. intros H. revert z. induction a as [|x a IH]; intros z; cbn; [reflexivity|]. rewrite H, IH. reflexivity. Qed.
Lemma cv_lin a s c v d w z : cv a s (fun y => c * v y + d * w y) z = c * cv a s v z + d * cv a s w z.
Proof. revert z. induction a as [|x a IH]; intros z; cbn; [ring|]. rewrite IH. ring. Qed.
Lemma cv_scale a s c v z : cv a s (fun y => c * v y) z = c * cv a s v z.
Proof. revert z. induction a as [|x a IH]; intros z; cbn; [ring|]. rewrite IH. ring. Qed.
Lemma cv_add a s v w z : cv a s (fun y => v y + w y) z = cv a s v z + cv a s w z.
Proof. revert z. induction a as [|x a IH]; intros z; cbn; [ring|]. rewrite IH. ring. Qed.
Lemma cv_zero a s z : cv a s (fun _ => 0) z = 0.
Proof. revert z. induction a as [|x a IH]; intros z; cbn; [ring|]. rewrite IH. ring. Qed.
Lemma cv_comm a s b t v z : cv a s (cv b t v) z = cv b t (cv a s v) z.
Proof.
  revert z. induction a as [|x a IH]; intros z; cbn [cv].
  - symmetry. apply cv_zero.
  - rewrite IH. change (cv b t (fun y => x * v y + cv a s v (y - s)%Z) z = x * cv b t v z + cv b t (cv a s v) (z - s)%Z) || idtac.
    transitivity (cv b t (fun y => x * v y + cv a s v (y + - s)%Z) z).
    + rewrite cv_add, cv_scale. f_equal. rewrite (cv_shift b t (cv a s v) (- s)). f_equal.
    + apply cv_ext. intros y. reflexivity.
Qed.
Lemma cv_scaled c a s v z : cv (scaled c a) s v z = cv a s v z / c.
Proof. revert z. induction a as [|x a IH]; intros z; cbn; [unfold Rdiv; ring|]. fold (scaled c a). rewrite IH. unfold Rdiv. ring. Qed.
Lemma cv_mult c a s v z : cv (map (Rmult c) a) s v z = c * cv a s v z.
Proof. revert z. induction a as [|x a IH]; intros z; cbn; [ring|]. rewrite IH. ring. Qed.
Lemma cv_repeat0 n s v z : cv (repeat 0 n) s v z = 0.
Proof. revert z. induction n as [|n IH]; intros z; cbn; [reflexivity|]. rewrite IH. ring. Qed.
Lemma cv_app a b s v z : cv (a ++ b) s v z = cv a s v z + cv b s v (z - s * Z.of_nat (length a))%Z.
Proof.
  revert z. induction a as [|x a IH]; intros z.
  - cbn [app cv length]. replace (z - s * Z.of_nat 0)%Z with z by lia. ring.
  - cbn [app cv length]. rewrite IH. replace (z - s - s * Z.of_nat (length a))%Z with (z - s * Z.of_nat (S (length a)))%Z by lia. ring.
Qed.
Lemma cv_padd a s v : forall b z, cv (padd a b) s v z = cv a s v z + cv b s v z.
Proof.
  induction a as [|x a IH]; intros b z; [cbn; ring|]. destruct b as [|y b]; [cbn; ring|]. cbn [padd cv]. rewrite IH. ring.
Qed.
Lemma cv_npconvolve a b s v z : cv (npconvolve a b) s v z = cv a s (cv b s v) z.
Proof.
  revert z. induction a as [|x a IH]; intros z; [reflexivity|]. cbn [npconvolve]. rewrite cv_padd, cv_mult. cbn [cv]. rewrite IH. ring.
Qed.
Lemma cv_up k a s v : (1 <= k)%nat -> forall z, cv (up_list k a) s v z = cv a (s * Z.of_nat k) v z.
Proof.
  intros Hk. induction a as [|x a IH]; intros z; [reflexivity|]. cbn [up_list]. destruct a as [|y a]; [reflexivity|].
  cbn [cv]. rewrite cv_app, cv_repeat0, IH, repeat_length. cbn [cv].
  replace (z - s - s * Z.of_nat (k - 1))%Z with (z - s * Z.of_nat k)%Z by (rewrite Nat2Z.inj_sub by lia; lia). ring.
Qed.
Lemma cv_ker k a s v : (1 <= k)%nat -> forall z, cv (ker_list k a) s v z = cv a (s * Z.of_nat k) v z.
Proof.
  intros Hk. unfold ker_list. induction a as [|x a IH]; intros z; [reflexivity|]. cbn [map List.concat].
  rewrite cv_app. cbn [cv]. rewrite cv_repeat0, IH. cbn [length]. rewrite repeat_length.
  replace (S (k - 1)) with k by lia. ring.
Qed.
Lemma ker_length k a : (1 <= k)%nat -> length (ker_list k a) = (length a * k)%nat.
Proof. intros Hk. unfold ker_list. induction a as [|x a IH]; [reflexivity|]. cbn [map List.concat]. rewrite app_length, IH. cbn [length]. rewrite repeat_length. lia. Qed.

Lemma per_mul N v : per N v -> forall k z, v (z + k * N)%Z = v z.
Proof.
  intros H k z. assert (P : forall n : nat, v (z + Z.of_nat n * N)%Z = v z /\ v (z - Z.of_nat n * N)%Z = v z).
  { induction n as [|n [I1 I2]]; [split; f_equal; lia|]. split.
    - rewrite <- I1, <- (H (z + Z.of_nat n * N)%Z). f_equal. lia.
    - rewrite <- I2, <- (H (z - Z.of_nat (S n) * N)%Z). f_equal. lia. }
  destruct (Z.le_gt_cases 0 k).
  - destruct (P (Z.to_nat k)) as [I _]. rewrite Z2Nat.id in I by lia. exact I.
  - destruct (P (Z.to_nat (- k))) as [_ I]. rewrite Z2Nat.id in I by lia. rewrite <- I. f_equal. lia.
Qed.
Lemma cv_rows N k s v : (1 <= N)%nat -> per (Z.of_nat N) v -> forall l z, (length l <= N * k)%nat -> cv (add_rows N k l) s v z = cv l s v z.
Proof.
  intros HN HP. induction k as [|k IH]; intros l z HL.
  - destruct l; [reflexivity|]. cbn in HL. lia.
  - cbn [add_rows]. rewrite cv_padd. destruct (Nat.le_gt_cases (length l) N) as [L|L].
    + rewrite (firstn_all2 l) by exact L. rewrite (skipn_all2 l) by exact L. rewrite IH by (cbn; lia). cbn [cv]. ring.
    + rewrite IH by (rewrite skipn_length; lia). rewrite <- (firstn_skipn N l) at 3. rewrite cv_app. f_equal. rewrite firstn_length_le by lia.
      symmetry. replace (z - s * Z.of_nat N)%Z with (z + - s * Z.of_nat N)%Z by lia. apply per_mul, cv_per, HP.
Qed.
Lemma cv_period l N s v z : (1 <= N)%nat -> per (Z.of_nat N) v -> cv (period_list l N) s v z = cv l s v z.
Proof.
  intros HN HP. unfold period_list. set (l' := l ++ _).
  assert (E : cv l' s v z = cv l s v z) by (unfold l'; rewrite cv_app, cv_repeat0; ring).
  destruct (Nat.ltb _ _); [exact E|]. rewrite cv_rows; [exact E|assumption|assumption|].
  assert (HM : (length l' mod N = 0)%nat).
  { unfold l'. rewrite app_length, repeat_length. pose proof (Nat.mod_upper_bound (length l) N ltac:(lia)).
    pose proof (Nat.div_mod (length l) N ltac:(lia)). replace (length l + (N - length l mod N))%nat with ((length l / N + 1) * N)%nat by lia. apply Nat.mod_mul. lia. }
  pose proof (Nat.div_mod (length l') N ltac:(lia)). lia.
Qed.

(** length of the periodised filter *)
Lemma padd_length a : forall b, length (padd a b) = Nat.max (length a) (length b).
Proof. induction a as [|x a IH]; intros [|y b]; cbn; try reflexivity. rewrite IH. reflexivity. Qed.
Lemma period_length l N : (1 <= N)%nat -> length (period_list l N) = N.
Proof.
  intros HN. unfold period_list. set (l' := l ++ _).
  pose proof (Nat.mod_upper_bound (length l) N ltac:(lia)) as HU. pose proof (Nat.div_mod (length l) N ltac:(lia)) as HD.
  assert (HL : length l' = ((length l / N + 1) * N)%nat) by (unfold l'; rewrite app_length, repeat_length; lia).
  destruct (Nat.ltb_spec (length l') (2 * N)) as [L|L].
  - destruct (length l / N)%nat as [|q] eqn:E; [lia|]. exfalso. rewrite HL in L. nia.
  - assert (Hk : (1 <= length l' / N)%nat) by (apply Nat.div_le_lower_bound; lia). set (k := (length l' / N)%nat) in *. clearbody k.
    assert (HN' : (N <= length l')%nat) by lia. clear HL L. clearbody l'. destruct k as [|k]; [lia|].
    assert (B : forall k l, (length (add_rows N k l) <= N)%nat).
    { induction k0 as [|k0 IH]; intros m; cbn; [lia|]. rewrite padd_length, firstn_length. specialize (IH (skipn N m)). lia. }
    cbn [add_rows]. rewrite padd_length, firstn_length. specialize (B k (skipn N l')). lia.
Qed.

(** ** from lists to functions and back *)
Lemma nth_map_w {A B} (f : A -> B) d0 d l k : (k < length l)%nat -> nth k (map f l) d = f (nth k l d0).
Proof. revert k. induction l as [|x l IH]; intros [|k] H; cbn in *; try lia; [reflexivity|]. apply IH. lia. Qed.
Lemma ext_per x : per (Z.of_nat (length x)) (ext x).
Proof. intros z. unfold ext. destruct x as [|a x]; [destruct (Z.to_nat _), (Z.to_nat _); reflexivity|]. rewrite <- (Z.mul_1_l (Z.of_nat _)) at 1. rewrite Z_mod_plus_full. reflexivity. Qed.
Lemma ext_nth x i : (i < length x)%nat -> ext x (Z.of_nat i) = nth i x 0.
Proof. intros H. unfold ext. rewrite Z.mod_small by lia. rewrite Nat2Z.id. reflexivity. Qed.
Lemma ext_unique (x : list R) v : (1 <= length x)%nat -> per (Z.of_nat (length x)) v -> (forall i, (i < length x)%nat -> nth i x 0 = v (Z.of_nat i)) ->
  forall z, ext x z = v z.
Proof.
  intros H1 HP H z. unfold ext. pose proof (Z.mod_pos_bound z (Z.of_nat (length x)) ltac:(lia)) as HB.
  rewrite H by lia. rewrite Z2Nat.id by lia. rewrite (Z.div_mod z (Z.of_nat (length x))) at 2 by lia.
  rewrite Z.add_comm, Z.mul_comm. symmetry. apply per_mul, HP.
Qed.

Lemma corr_cv w v z : corr w v z = cv w (-1) v z.
Proof. revert z. induction w as [|c w IH]; intros z; cbn; [reflexivity|]. rewrite IH. do 2 f_equal. Qed.
Lemma cv_rev a v z : cv (rev a) (-1) v z = cv a 1 v (z + Z.of_nat (length a) - 1)%Z.
Proof.
  revert z. induction a as [|x a IH]; intros z; [reflexivity|]. cbn [rev]. rewrite cv_app, IH, rev_length. cbn [cv length].
  replace (z - -1 * Z.of_nat (length a))%Z with (z + Z.of_nat (S (length a)) - 1)%Z by lia.
  replace (z + Z.of_nat (S (length a)) - 1 - 1)%Z with (z + Z.of_nat (length a) - 1)%Z by lia. ring.
Qed.

Definition of_fun (N : nat) (v : Z -> R) : list R := map (fun i => v (Z.of_nat i)) (seq 0 N).
Lemma of_fun_length N v : length (of_fun N v) = N.
Proof. unfold of_fun. rewrite map_length, seq_length. reflexivity. Qed.
Lemma of_fun_nth N v i : (i < N)%nat -> nth i (of_fun N v) 0 = v (Z.of_nat i).
Proof. intros H. unfold of_fun. rewrite (nth_map_w _ 0%nat) by (rewrite seq_length; exact H). rewrite seq_nth by exact H. reflexivity. Qed.
Lemma ext_of_fun N v : (1 <= N)%nat -> per (Z.of_nat N) v -> forall z, ext (of_fun N v) z = v z.
Proof. intros HN HP. apply ext_unique; rewrite of_fun_length; [exact HN|exact HP|]. intros i Hi. apply of_fun_nth, Hi. Qed.
Lemma of_fun_ext' N v w : (forall z, v z = w z) -> of_fun N v = of_fun N w.
Proof. intros H. unfold of_fun. apply map_ext. intros i. apply H. Qed.
Lemma of_fun_self x : of_fun (length x) (ext x) = x.
Proof. apply (nth_ext _ _ 0 0); [apply of_fun_length|]. intros i Hi. rewrite of_fun_length in Hi. rewrite of_fun_nth by exact Hi. apply ext_nth, Hi. Qed.

Lemma convolve1d_ok x ker o : (let L := Z.of_nat (length ker) in let o' := (- o - (if Z.even L then 1 else 0))%Z in 0 <= L / 2 + o' < L)%Z ->
  convolve1d x ker o = Ok (of_fun (length x) (fun z => cv ker 1 (ext x) (z - Z.of_nat (length ker) / 2 + o + (if Z.even (Z.of_nat (length ker)) then 1 else 0) + Z.of_nat (length ker) - 1)%Z)).
Proof.
  intros H. cbn zeta in H. unfold convolve1d. set (L := Z.of_nat (length ker)) in *.
  rewrite (proj2 (Z.leb_le _ _)), (proj2 (Z.ltb_lt _ _)) by lia. cbn [andb]. f_equal. unfold of_fun. apply map_ext. intros l.
  rewrite corr_cv, cv_rev. fold L. f_equal. lia.
Qed.

Lemma ccd_ok h x j : Nat.even (length h) = true \/ (2 <= j)%nat -> (1 <= length h)%nat ->
  circular_convolve_d h x j = Ok (of_fun (length x) (cv h (Z.of_nat (2 ^ (j - 1))) (ext x))).
Proof.
  intros HE Hh. unfold circular_convolve_d. set (k := (2 ^ (j - 1))%nat). assert (Hk : (1 <= k)%nat) by (unfold k; pose proof (Nat.pow_nonzero 2 (j - 1) ltac:(lia)); lia).
  set (ker := ker_list k h). assert (HK : length ker = (length h * k)%nat) by (apply ker_length, Hk).
  assert (EV : Z.even (Z.of_nat (length ker)) = true).
  { rewrite HK. destruct HE as [E|E].
    - apply Nat.even_spec in E. destruct E as [q ->]. apply Z.even_spec. exists (Z.of_nat (q * k)). lia.
    - apply Z.even_spec. exists (Z.of_nat (length h * 2 ^ (j - 2))). unfold k. replace (j - 1)%nat with (S (j - 2)) by lia. rewrite Nat.pow_succ_r'. lia. }
  assert (HP : (1 <= length ker)%nat) by (rewrite HK; nia).
  assert (HC : forall z, cv ker 1 (ext x) z = cv h (1 * Z.of_nat k) (ext x) z) by (intros z; apply cv_ker, Hk). clearbody ker.
  apply Z.even_spec in EV. destruct EV as [q EV]. assert (EV' : Z.even (2 * q) = true) by (apply Z.even_spec; exists q; reflexivity).
  assert (D1 : ((2 * q) / 2 = q)%Z) by (rewrite Z.mul_comm; apply Z.div_mul; lia).
  assert (D2 : ((- (2 * q)) / 2 = - q)%Z) by (replace (- (2 * q))%Z with (- q * 2)%Z by lia; apply Z.div_mul; lia).
  rewrite convolve1d_ok; cbn zeta; rewrite EV, ?EV', ?D1, ?D2; [|lia]. f_equal. apply of_fun_ext'. intros z.
  replace (z - q + - q + 1 + 2 * q - 1)%Z with z by lia.
  rewrite <- (Z.mul_1_l (Z.of_nat k)). apply HC.
Qed.

Lemma ccd_odd h x : Nat.even (length h) = false -> circular_convolve_d h x 1 = Err ValueError.
Proof.
  intros HE. unfold circular_convolve_d. cbn [Nat.pow Nat.sub]. set (ker := ker_list 1 h). assert (HK : length ker = length h) by (unfold ker; rewrite ker_length by lia; lia).
  unfold convolve1d. rewrite HK. clearbody ker. assert (HO : exists q, length h = (2 * q + 1)%nat) by (destruct (Nat.even_spec (length h)); destruct (Nat.Even_or_Odd (length h)) as [E|E]; [apply Nat.even_spec in E; congruence|destruct E as [q E]; exists q; lia]).
  destruct HO as [q HO]. rewrite HO. replace (Z.of_nat (2 * q + 1)) with (2 * Z.of_nat q + 1)%Z by lia.
  assert (EV : Z.even (2 * Z.of_nat q + 1) = false) by (rewrite Z.even_add, Z.even_mul; reflexivity). rewrite EV.
  assert (D1 : ((2 * Z.of_nat q + 1) / 2 = Z.of_nat q)%Z) by (symmetry; apply Z.div_unique with 1%Z; lia).
  assert (D2 : ((- (2 * Z.of_nat q + 1)) / 2 = - Z.of_nat q - 1)%Z) by (symmetry; apply Z.div_unique with 1%Z; lia).
  rewrite D1, D2. rewrite (proj2 (Z.ltb_ge _ _)) by lia. rewrite andb_false_r. reflexivity.
Qed.

Lemma ccm_ok h w : (1 <= length h)%nat -> circular_convolve_mra h w = Ok (of_fun (length w) (cv h (-1) (ext w))).
Proof.
  intros Hh. unfold circular_convolve_mra. set (L := Z.of_nat (length h)).
  assert (HE : exists q, (L = 2 * q \/ L = 2 * q + 1)%Z) by (exists (L / 2)%Z; pose proof (Z.div_mod L 2 ltac:(lia)); pose proof (Z.mod_pos_bound L 2 ltac:(lia)); lia).
  destruct HE as [q HE].
  assert (X : (L / 2 = q /\ ((L - 1) / 2 = q - 1 /\ Z.even L = true /\ L = 2 * q \/ (L - 1) / 2 = q /\ Z.even L = false /\ L = 2 * q + 1))%Z).
  { destruct HE as [E|E]; rewrite E.
    - split; [symmetry; apply Z.div_unique with 0%Z; lia|]. left. split; [symmetry; apply Z.div_unique with 1%Z; lia|]. split; [|reflexivity]. rewrite Z.even_mul. reflexivity.
    - split; [symmetry; apply Z.div_unique with 1%Z; lia|]. right. split; [symmetry; apply Z.div_unique with 0%Z; lia|]. split; [|reflexivity]. rewrite Z.even_add, Z.even_mul. reflexivity. }
  assert (HL : (1 <= L)%Z) by lia. destruct X as [X1 X2].
  rewrite convolve1d_ok; cbn zeta; rewrite rev_length; fold L; rewrite ?X1; [|destruct X2 as [(-> & -> & ?)|(-> & -> & ?)]; lia].
  f_equal. apply of_fun_ext'. intros z. rewrite <- (rev_involutive h) at 2. rewrite cv_rev, rev_length. fold L. f_equal.
  destruct X2 as [(-> & -> & ?)|(-> & -> & ?)]; lia.
Qed.

(** ** the pyramid on functions *)
Definition fl (a : list R) (s : Z) (v : Z -> R) : Z -> R := fun z => cv a s v z / sqrt 2.
Lemma fl_per a s v N : per N v -> per N (fl a s v).
Proof. intros H z. unfold fl. rewrite (cv_per a s v N H z). reflexivity. Qed.
Fixpoint mw (h g : list R) (s : Z) (n : nat) (v : Z -> R) : list (Z -> R) :=
  match n with O => [v] | S n' => fl h s v :: mw h g (2 * s) n' (fl g s v) end.
Fixpoint dets (h g : list R) (s : Z) (n : nat) (v : Z -> R) : list (Z -> R) :=
  match n with O => [v] | S n' => fl h (- s) (fl h s v) :: map (fl g (- s)) (dets h g (2 * s) n' (fl g s v)) end.

Lemma scaled_length c l : length (scaled c l) = length l.
Proof. apply map_length. Qed.
Lemma pow2_Z j : Z.of_nat (2 ^ (j + 1)) = (2 * Z.of_nat (2 ^ j))%Z.
Proof. replace (j + 1)%nat with (S j) by lia. rewrite Nat.pow_succ_r'. lia. Qed.

Lemma modwt_from_ok h g N : (1 <= N)%nat -> (1 <= length h)%nat -> (1 <= length g)%nat -> Nat.even (length h) = true -> Nat.even (length g) = true ->
  forall n j v, per (Z.of_nat N) v ->
  modwt_from (scaled (sqrt 2) h) (scaled (sqrt 2) g) (of_fun N v) j n = Ok (map (of_fun N) (mw h g (Z.of_nat (2 ^ j)) n v)).
Proof.
  intros HN Hh Hg Eh Eg. induction n as [|n IH]; intros j v HP; [reflexivity|]. cbn [modwt_from mw map].
  assert (F : forall a, (1 <= length a)%nat -> Nat.even (length a) = true ->
     circular_convolve_d (scaled (sqrt 2) a) (of_fun N v) (j + 1) = Ok (of_fun N (fl a (Z.of_nat (2 ^ j)) v))).
  { intros a Ha Ea. rewrite ccd_ok by (rewrite scaled_length; auto). rewrite of_fun_length. f_equal. apply of_fun_ext'. intros z.
    replace (j + 1 - 1)%nat with j by lia. rewrite cv_scaled. unfold fl. f_equal. apply cv_ext. apply ext_of_fun; assumption. }
  rewrite !F by assumption. cbn [bind]. rewrite IH by (apply fl_per, HP). cbn [bind]. rewrite pow2_Z. reflexivity.
Qed.

Lemma up_length k l : l <> [] -> (1 <= length (up_list k l))%nat.
Proof. destruct l as [|x [|y l]]; [congruence|cbn; lia|cbn; lia]. Qed.

Lemma mw_nonempty h g s n v : mw h g s n v <> [].
Proof. destruct n; discriminate. Qed.

Lemma cv_upArrow a j s v z : cv (upArrow_op a (j + 1)) s v z = cv a (s * Z.of_nat (2 ^ j)) v z.
Proof.
  replace (j + 1)%nat with (S j) by lia. cbn [upArrow_op]. apply cv_up. pose proof (Nat.pow_nonzero 2 j ltac:(lia)). lia.
Qed.
Lemma sqrt2_pow_pos j : 0 < sqrt 2 ^ j.
Proof. apply pow_lt, sqrt_lt_R0. lra. Qed.

Lemma cv_hd1 s v z : cv [1] s v z = v z.
Proof. cbn. ring. Qed.

Lemma mra_from_ok h g N : (1 <= N)%nat -> forall n j part v, per (Z.of_nat N) v -> (j = 0%nat -> part = [1]) ->
  mra_from h g part (map (of_fun N) (mw h g (Z.of_nat (2 ^ j)) n v)) j N =
  Ok (map (of_fun N) (map (fun u z => cv (npconvolve part (upArrow_op g j)) (-1) u z / sqrt 2 ^ j) (dets h g (Z.of_nat (2 ^ j)) n v))).
Proof.
  intros HN.
  assert (F : forall f u, per (Z.of_nat N) u -> circular_convolve_mra (period_list f N) (of_fun N u) = Ok (of_fun N (cv f (-1) u))).
  { intros f u HP. rewrite ccm_ok by (rewrite period_length; lia). rewrite of_fun_length. f_equal. apply of_fun_ext'. intros z.
    rewrite (cv_ext _ _ _ u) by (apply ext_of_fun; assumption). apply cv_period; assumption. }
  induction n as [|n IH]; intros j part v HP Hj.
  - cbn [mw dets map mra_from]. rewrite F by exact HP. cbn [bind]. do 3 f_equal. apply functional_extensionality. intros z. apply cv_scaled.
  - cbn [mw dets map]. set (rows := map (of_fun N) (mw h g (2 * Z.of_nat (2 ^ j)) n (fl g (Z.of_nat (2 ^ j)) v))).
    assert (HR : rows <> []) by (unfold rows; intros E; apply map_eq_nil in E; exact (mw_nonempty _ _ _ _ _ E)).
    assert (ER : rows = map (of_fun N) (mw h g (Z.of_nat (2 ^ (j + 1))) n (fl g (Z.of_nat (2 ^ j)) v))) by (rewrite pow2_Z; reflexivity).
    clearbody rows. cbn [mra_from]. destruct rows as [|r rows]; [congruence|]. set (part' := npconvolve part (upArrow_op g j)).
    rewrite F by (apply fl_per, HP). cbn [bind]. rewrite ER, IH by (try apply fl_per, HP; lia). cbn [bind]. f_equal. cbn [map]. f_equal.
    + apply of_fun_ext'. intros z. set (w := fl h (Z.of_nat (2 ^ j)) v).
      assert (E : cv (scaled (sqrt 2 ^ (j + 1)) (npconvolve part' (upArrow_op h (j + 1)))) (-1) w z = cv part' (-1) (fl h (- Z.of_nat (2 ^ j)) w) z / sqrt 2 ^ j).
      { rewrite cv_scaled, cv_npconvolve. rewrite (cv_ext part' (-1) (cv (upArrow_op h (j + 1)) (-1) w) (fun y => sqrt 2 * fl h (- Z.of_nat (2 ^ j)) w y)).
        - rewrite cv_scale, pow_add, pow_1. unfold Rdiv. rewrite Rinv_mult. pose proof (sqrt2_pow_pos 1). cbn [pow] in *. field. split; [apply Rgt_not_eq, sqrt2_pow_pos|lra].
        - intros y. rewrite cv_upArrow. unfold fl. replace (-1 * Z.of_nat (2 ^ j))%Z with (- Z.of_nat (2 ^ j))%Z by lia. pose proof (sqrt2_pow_pos 1). cbn [pow] in *. field. lra. }
      destruct (Nat.eqb_spec j 0) as [->|Nj]; [|exact E].
      rewrite cv_scaled. unfold part'. rewrite (Hj eq_refl). cbn [upArrow_op npconvolve map padd Nat.pow Z.of_nat Pos.of_succ_nat]. cbn [pow]. rewrite (cv_padd [1 * 1] (-1) _ [0]) || idtac.
      cbn [padd cv]. unfold fl. change (Z.of_nat (2 ^ 0)) with 1%Z. cbn [Z.opp]. pose proof (sqrt2_pow_pos 1). cbn [pow] in *. field. lra.
    + rewrite pow2_Z, !map_map. apply map_ext_in. intros u _. apply of_fun_ext'. intros z.
      fold part'. rewrite cv_npconvolve.
      rewrite (cv_ext part' (-1) (cv (upArrow_op g (j + 1)) (-1) u) (fun y => sqrt 2 * fl g (- Z.of_nat (2 ^ j)) u y)).
      * rewrite cv_scale, pow_add, pow_1. pose proof (sqrt2_pow_pos 1). cbn [pow] in *. field. split; [apply Rgt_not_eq, sqrt2_pow_pos|lra].
      * intros y. rewrite cv_upArrow. unfold fl. replace (-1 * Z.of_nat (2 ^ j))%Z with (- Z.of_nat (2 ^ j))%Z by lia. pose proof (sqrt2_pow_pos 1). cbn [pow] in *. field. lra.
Qed.
