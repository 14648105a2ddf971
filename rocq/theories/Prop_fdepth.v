(** C103: thicknesses, depths and total depth in double precision. *)
From Coq Require Import Reals List Bool ZArith Lia Lra Psatz Permutation.
From Flocq Require Import Core IEEE754.BinarySingleNaN Plus_error Relative Sterbenz.
From Verif Require Import Base M_float P_float.
Import ListNotations.
Open Scope R_scope.

(** Specification: an admissible thickness is finite and not negative; the exact total. *)
Definition thickness (x : f64) : Prop := fin x = true /\ 0 <= val x.
Fixpoint total (l : list f64) : R := match l with [] => 0 | x :: r => val x + total r end.

Lemma thickness_ge0 x : thickness x -> fle f0 x = true.
Proof. intros [F H]. apply fle_val; [reflexivity|exact F|]. rewrite f0_val. exact H. Qed.
Lemma total_nonneg l : Forall thickness l -> 0 <= total l.
Proof. induction 1 as [|x l [_ H] _ IH]; cbn; lra. Qed.
Lemma total_app a b : total (a ++ b) = total a + total b.
Proof. induction a as [|x a IH]; cbn; [lra|rewrite IH; lra]. Qed.
Lemma total_perm a b : Permutation a b -> total a = total b.
Proof. induction 1; cbn; lra. Qed.
Lemma total_firstn k l : Forall thickness l -> 0 <= total (firstn k l) <= total l.
Proof.
  revert k. induction l as [|x l IH]; intros [|k] H; cbn; try lra.
  - pose proof (total_nonneg _ H) as T. cbn in T. lra.
  - inversion H as [|? ? [_ Hx] Hl]; subst. specialize (IH k Hl). lra.
Qed.

(** Order. *)
Lemma fle_refl0 x : fle f0 x = true -> fle x x = true.
Proof. intros H. destruct (ge0_cases x H) as [[F V]| ->]; [apply fle_val; auto; lra|reflexivity]. Qed.
Lemma fle_trans0 x y z : fle f0 x = true -> fle f0 y = true -> fle f0 z = true -> fle x y = true -> fle y z = true -> fle x z = true.
Proof.
  intros Hx Hy Hz A B. destruct (ge0_cases z Hz) as [[Fz Vz]| ->].
  - destruct (ge0_cases y Hy) as [[Fy Vy]| ->].
    + destruct (ge0_cases x Hx) as [[Fx Vx]| ->].
      * apply fle_val in A, B; auto. apply fle_val; auto. lra.
      * destruct y as [s|[|]| |s m e W]; discriminate.
    + destruct z as [s|[|]| |s m e W]; discriminate.
  - apply fle_inf. destruct x as [s|[|]| |s m e W]; try reflexivity; discriminate Hx.
Qed.
Lemma tops_nonneg acc thk : fle f0 acc = true -> Forall (fun t => fle f0 t = true) thk -> Forall (fun d => fle f0 d = true /\ fle acc d = true) (tops acc thk).
Proof.
  revert acc. induction thk as [|t r IH]; intros acc Ha H; cbn [tops]; [constructor|]. inversion H as [|? ? Ht Hr]; subst.
  constructor; [split; [exact Ha|apply fle_refl0, Ha]|]. destruct (fadd_ge0 acc t Ha Ht) as [P Q].
  specialize (IH _ P Hr). rewrite Forall_forall in IH |- *. intros d Hd. destruct (IH d Hd) as [D1 D2]. split; [exact D1|].
  eapply fle_trans0; [exact Ha|exact P|exact D1|exact Q|exact D2].
Qed.
Lemma tops_length acc thk : length (tops acc thk) = length thk.
Proof. revert acc. induction thk as [|t r IH]; intros acc; cbn; [reflexivity|rewrite IH; reflexivity]. Qed.
Lemma tops_sorted acc thk i j d : fle f0 acc = true -> Forall (fun t => fle f0 t = true) thk -> (i <= j < length thk)%nat ->
  fle (nth i (tops acc thk) d) (nth j (tops acc thk) d) = true.
Proof.
  revert acc i j. induction thk as [|t r IH]; intros acc i j Ha H L; [cbn in L; lia|]. inversion H as [|? ? Ht Hr]; subst.
  destruct i as [|i].
  - pose proof (tops_nonneg acc (t :: r) Ha H) as N. rewrite Forall_forall in N. apply N. apply nth_In. rewrite tops_length. lia.
  - destruct j as [|j]; [lia|]. cbn [tops nth]. apply IH; [apply fadd_ge0; assumption|exact Hr|cbn in L; lia].
Qed.

Lemma thk2dep_tops thk dep : thk2dep_f thk false = Ok dep -> thk <> [] /\ dep = tops f0 thk.
Proof. intros E. destruct thk as [|t r]; [discriminate|]. split; [discriminate|]. unfold thk2dep_f in E. symmetry. exact (f_equal (fun x => match x with Ok y => y | Err _ => [] end) E). Qed.

(** Depths are never NaN and never decrease, for all thicknesses that are not negative, even
    infinite ones or when the sum exceeds the largest number. *)
Theorem C103_depths_ordered : forall thk dep, Forall (fun t => fle f0 t = true) thk -> thk2dep_f thk false = Ok dep ->
  length dep = length thk /\ nth 0 dep f0 = f0 /\ Forall (fun d => fle f0 d = true) dep /\
  forall i j, (i <= j < length dep)%nat -> fle (nth i dep f0) (nth j dep f0) = true.
Proof.
  intros thk dep H E. apply thk2dep_tops in E as [Ne ->].
  split; [apply tops_length|]. split; [destruct thk; [contradiction|reflexivity]|]. split.
  - eapply Forall_impl; [|apply (tops_nonneg f0 thk eq_refl H)]. intros d [D _]. exact D.
  - intros i j L. apply tops_sorted; [reflexivity|exact H|]. rewrite tops_length in L. exact L.
Qed.

(** Error bound of the depths. *)
Lemma E_ge1 n : 1 <= (1 + ueps) ^ n. Proof. apply pow_R1_Rle. pose proof ueps_pos. lra. Qed.
Lemma step_error E A acc t : 1 <= E -> 0 <= A -> Rabs (val acc - A) <= (E - 1) * A -> thickness acc -> thickness t ->
  Rabs (rnd (val acc + val t) - (A + val t)) <= (E * (1 + ueps) - 1) * (A + val t).
Proof.
  intros HE HA H [Fa Va] [Ft Vt]. destruct (rnd_plus' (val acc) (val t) (val_dbl _) (val_dbl _)) as (e & He & ->). pose proof ueps_pos as U.
  apply Rabs_le_inv in H. apply Rabs_le_inv in He.
  assert (S0 : 0 <= val acc + val t <= E * (A + val t)) by (split; [lra|assert (val t <= E * val t) by nra; lra]).
  assert (M : - (ueps * (E * (A + val t))) <= e * (val acc + val t) <= ueps * (E * (A + val t))).
  { set (X := val acc + val t) in *. set (Y := E * (A + val t)) in *. split; nra. }
  assert (Et : val t <= E * val t) by nra. apply Rabs_le. split; lra.
Qed.
Lemma tops_fin thk acc k : (k < length thk)%nat -> fin (nth k (tops acc thk) f0) = true -> fin acc = true.
Proof.
  revert acc k. induction thk as [|t r IH]; intros acc k L F; [cbn in L; lia|]. destruct k as [|k]; [exact F|].
  cbn [tops nth] in F. apply (fadd_fin_inv acc t). apply (IH _ k); [cbn in L; lia|exact F].
Qed.
Lemma fadd_thickness x y : thickness x -> thickness y -> fin (fadd x y) = true -> thickness (fadd x y).
Proof. intros [Fx Vx] [Fy Vy] F. split; [exact F|]. rewrite fadd_val by assumption. apply rnd_nonneg. lra. Qed.
Lemma tops_error acc A E thk k : 1 <= E -> 0 <= A -> Rabs (val acc - A) <= (E - 1) * A -> thickness acc -> Forall thickness thk -> (k < length thk)%nat ->
  fin (nth k (tops acc thk) f0) = true ->
  Rabs (val (nth k (tops acc thk) f0) - (A + total (firstn k thk))) <= (E * (1 + ueps) ^ k - 1) * (A + total (firstn k thk)).
Proof.
  revert acc A E k. induction thk as [|t r IH]; intros acc A E k HE HA H Ta Hl L F; [cbn in L; lia|].
  inversion Hl as [|? ? Ht Hr]; subst. destruct k as [|k].
  - cbn [tops nth firstn total pow]. rewrite Rmult_1_r, Rplus_0_r. exact H.
  - cbn [tops nth firstn total length] in *. assert (L' : (k < length r)%nat) by lia.
    pose proof (tops_fin r (fadd acc t) k L' F) as Fs. pose proof (fadd_thickness acc t Ta Ht Fs) as Ts.
    pose proof (step_error E A acc t HE HA H Ta Ht) as S1. rewrite <- (fadd_val acc t) in S1 by (apply Ta || apply Ht || exact Fs).
    pose proof ueps_pos. destruct Ht as [_ Vt].
    specialize (IH (fadd acc t) (A + val t) (E * (1 + ueps)) k ltac:(nra) ltac:(lra) S1 Ts Hr L' F).
    rewrite <- Rplus_assoc. replace (E * (1 + ueps) ^ S k) with (E * (1 + ueps) * (1 + ueps) ^ k) by (cbn [pow]; ring). exact IH.
Qed.
Lemma f0_thick : thickness f0. Proof. split; [reflexivity|]. rewrite f0_val. lra. Qed.

(** Depth number k is the exact sum of the k layers above, up to the relative error of k
    roundings, whenever it is finite. *)
Theorem C103_depth_error : forall thk dep k, Forall thickness thk -> thk2dep_f thk false = Ok dep -> (k < length dep)%nat -> fin (nth k dep f0) = true ->
  Rabs (val (nth k dep f0) - total (firstn k thk)) <= ((1 + ueps) ^ k - 1) * total (firstn k thk).
Proof.
  intros thk dep k H E L F. apply thk2dep_tops in E as [_ ->]. rewrite tops_length in L.
  pose proof (tops_error f0 0 1 thk k ltac:(lra) ltac:(lra) ltac:(rewrite f0_val, Rminus_0_r, Rabs_R0; lra) f0_thick H L F) as T.
  rewrite Rplus_0_l, Rmult_1_l in T. exact T.
Qed.

Lemma tops_all_fin acc A E thk : 1 <= E -> 0 <= A -> Rabs (val acc - A) <= (E - 1) * A -> thickness acc -> Forall thickness thk ->
  E * (1 + ueps) ^ length thk * (A + total thk) < top64 -> Forall (fun d => fin d = true) (tops acc thk).
Proof.
  revert acc A E. induction thk as [|t r IH]; intros acc A E HE HA H Ta Hl B; cbn [tops]; [constructor|].
  inversion Hl as [|? ? Ht Hr]; subst. constructor; [apply Ta|]. pose proof ueps_pos as U.
  pose proof (step_error E A acc t HE HA H Ta Ht) as S1. destruct Ta as [Fa Va]. pose proof Ht as [Ft Vt].
  pose proof (total_nonneg r Hr) as Tr. cbn [total length pow] in B.
  assert (E1 : 1 <= E * (1 + ueps)) by nra. pose proof (E_ge1 (length r)) as En.
  assert (L : Rabs (rnd (val acc + val t)) < top64).
  { rewrite Rabs_pos_eq by (apply rnd_nonneg; lra). apply Rabs_le_inv in S1.
    apply Rle_lt_trans with (E * (1 + ueps) * (A + val t)); [lra|]. eapply Rle_lt_trans; [|exact B].
    replace (E * ((1 + ueps) * (1 + ueps) ^ length r) * (A + (val t + total r))) with (E * (1 + ueps) * ((1 + ueps) ^ length r * (A + val t + total r))) by ring.
    apply Rmult_le_compat_l; [lra|]. nra. }
  destruct (fadd_fin acc t Fa Ft L) as [Fs Vs]. apply (IH _ (A + val t) (E * (1 + ueps))); [exact E1|lra|rewrite Vs; exact S1| |exact Hr|].
  - split; [exact Fs|]. rewrite Vs. apply rnd_nonneg. lra.
  - eapply Rle_lt_trans; [|exact B]. right. ring.
Qed.
(** No overflow unless the sum is within rounding of the largest number. *)
Theorem C103_no_overflow : forall thk dep, Forall thickness thk -> thk2dep_f thk false = Ok dep ->
  (1 + ueps) ^ length thk * total thk < top64 -> Forall (fun d => fin d = true) dep.
Proof.
  intros thk dep H E B. apply thk2dep_tops in E as [_ ->].
  apply (tops_all_fin f0 0 1); [lra|lra|rewrite f0_val, Rminus_0_r, Rabs_R0; lra|apply f0_thick|exact H|]. rewrite Rmult_1_l, Rplus_0_l. exact B.
Qed.

(** Exactness: thicknesses that are multiples of a power of two. *)
Definition on_grid (e : Z) (r : R) : Prop := exists m, (0 <= m <= 2 ^ 53)%Z /\ r = IZR m * bpow radix2 e.
Lemma grid_dbl e r : (-1074 <= e)%Z -> on_grid e r -> dbl r.
Proof.
  intros He (m & Hm & ->). destruct (Z.eq_dec m (2 ^ 53)) as [->|Ne].
  - change (IZR (2 ^ 53)) with (bpow radix2 53). rewrite <- bpow_plus. apply generic_format_bpow. unfold FLT_exp. lia.
  - apply generic_format_FLT. exists (Float radix2 m e); [reflexivity| |exact He]. cbn [Fnum]. change (radix2 ^ 53)%Z with (2 ^ 53)%Z. lia.
Qed.
Definition multiple (e : Z) (x : f64) : Prop := fin x = true /\ exists m, (0 <= m)%Z /\ val x = IZR m * bpow radix2 e.
Lemma multiple_thickness e x : multiple e x -> thickness x.
Proof. intros [F (m & Hm & E)]. split; [exact F|]. rewrite E. apply Rmult_le_pos; [apply IZR_le, Hm|apply bpow_ge_0]. Qed.
Lemma total_multiple e l : Forall (multiple e) l -> exists m, (0 <= m)%Z /\ total l = IZR m * bpow radix2 e.
Proof.
  induction 1 as [|x l [_ (m & Hm & E)] _ (n & Hn & IH)]; [exists 0%Z; split; [lia|cbn; ring]|]. exists (m + n)%Z. split; [lia|]. cbn. rewrite E, IH, plus_IZR. ring.
Qed.
Lemma small_grid e r m : (0 <= m)%Z -> r = IZR m * bpow radix2 e -> r <= bpow radix2 (53 + e) -> on_grid e r.
Proof.
  intros Hm E L. exists m. split; [|exact E]. split; [exact Hm|]. apply le_IZR. rewrite E, bpow_plus in L.
  apply Rmult_le_reg_r in L; [|apply bpow_gt_0]. exact L.
Qed.
Lemma tops_exact e acc thk : (-1074 <= e)%Z -> multiple e acc -> Forall (multiple e) thk -> val acc + total thk <= bpow radix2 (53 + e) -> val acc + total thk < top64 ->
  forall k, (k < length thk)%nat -> fin (nth k (tops acc thk) f0) = true /\ val (nth k (tops acc thk) f0) = val acc + total (firstn k thk).
Proof.
  intros He. revert acc. induction thk as [|t r IH]; intros acc Ma Hl B T k L; [cbn in L; lia|]. inversion Hl as [|? ? Mt Mr]; subst.
  destruct k as [|k]; [cbn [tops nth firstn total]; split; [apply Ma|lra]|]. cbn [tops nth firstn total length] in *.
  assert (Fr : Forall thickness r) by (eapply Forall_impl; [|exact Mr]; intros; eapply multiple_thickness; eassumption).
  pose proof (total_nonneg r Fr) as Tr. pose proof (multiple_thickness e acc Ma) as [Fa Va]. pose proof (multiple_thickness e t Mt) as [Ft Vt].
  destruct (proj2 Ma) as (ma & Hma & Ea), (proj2 Mt) as (mt & Hmt & Et).
  assert (Es : val acc + val t = IZR (ma + mt) * bpow radix2 e) by (rewrite plus_IZR, Ea, Et; ring).
  assert (D : dbl (val acc + val t)) by (apply (grid_dbl e _ He); apply (small_grid e _ (ma + mt)); [lia|exact Es|lra]).
  destruct (fadd_fin acc t Fa Ft) as [Fs Vs]. { rewrite (rnd_id _ D), Rabs_pos_eq; lra. } rewrite (rnd_id _ D) in Vs.
  assert (Ms : multiple e (fadd acc t)). { split; [exact Fs|]. exists (ma + mt)%Z. split; [lia|]. rewrite Vs. exact Es. }
  destruct (IH (fadd acc t) Ms Mr ltac:(lra) ltac:(lra) k ltac:(lia)) as [F V]. split; [exact F|]. rewrite V, Vs. ring.
Qed.
Lemma multiple_f0 e : multiple e f0. Proof. split; [reflexivity|]. exists 0%Z. split; [lia|]. rewrite f0_val. ring. Qed.

(** With all thicknesses multiples of 2^e (for example of 1/8 m) and a total of at most
    2^(53+e), the depths are exact ... *)
Theorem C103_exact_depths : forall e thk dep, (-1074 <= e)%Z -> Forall (multiple e) thk -> total thk <= bpow radix2 (53 + e) -> total thk < top64 ->
  thk2dep_f thk false = Ok dep -> forall k, (k < length dep)%nat -> fin (nth k dep f0) = true /\ val (nth k dep f0) = total (firstn k thk).
Proof.
  intros e thk dep He H B T E k L. apply thk2dep_tops in E as [_ ->]. rewrite tops_length in L.
  destruct (tops_exact e f0 thk He (multiple_f0 e) H ltac:(rewrite f0_val; lra) ltac:(rewrite f0_val; lra) k L) as [F V]. rewrite f0_val, Rplus_0_l in V. auto.
Qed.
Lemma diffs_length d : length (diffs_f d) = Nat.pred (length d).
Proof. induction d as [|x r IH]; [reflexivity|]. cbn [diffs_f]. destruct r as [|y r]; [reflexivity|]. cbn [length] in *. rewrite IH. reflexivity. Qed.
Lemma diffs_nth d k : (S k < length d)%nat -> nth k (diffs_f d) f0 = fsub (nth (S k) d f0) (nth k d f0).
Proof.
  revert k. induction d as [|x r IH]; intros k L; [cbn in L; lia|]. destruct r as [|y r]; [cbn in L; lia|].
  destruct k as [|k]; [reflexivity|]. cbn [diffs_f nth]. change (nth k (diffs_f (y :: r)) f0 = fsub (nth (S k) (y :: r) f0) (nth k (y :: r) f0)). apply IH. cbn in L |- *. lia.
Qed.
Lemma total_firstn_S l k : (k < length l)%nat -> total (firstn (S k) l) = total (firstn k l) + val (nth k l f0).
Proof.
  revert k. induction l as [|x l IH]; intros k L; [cbn in L; lia|]. destruct k as [|k]; [cbn; lra|].
  change (firstn (S (S k)) (x :: l)) with (x :: firstn (S k) l). change (firstn (S k) (x :: l)) with (x :: firstn k l). cbn [total nth]. rewrite IH by (cbn in L; lia). lra.
Qed.
Lemma dep2thk_ok d thk : dep2thk_f d true = Ok thk -> thk = diffs_f d ++ [f0] /\ d <> [] /\ length thk = length d.
Proof.
  intros E. destruct d as [|x r]; [discriminate|]. unfold dep2thk_f in E. destruct (negb (feq x f0)); [discriminate|].
  assert (Q : thk = diffs_f (x :: r) ++ [f0]) by (symmetry; exact (f_equal (fun x => match x with Ok y => y | Err _ => [] end) E)).
  split; [exact Q|]. split; [discriminate|]. rewrite Q, app_length, diffs_length. cbn. lia.
Qed.
Lemma list_val_eq (a b : list f64) : length a = length b -> (forall k, (k < length a)%nat -> val (nth k a f0) = val (nth k b f0)) -> map val a = map val b.
Proof.
  revert b. induction a as [|x a IH]; intros [|y b] L H; try discriminate L; [reflexivity|]. cbn [map]. f_equal; [apply (H 0%nat); cbn; lia|].
  apply IH; [cbn in L; lia|]. intros k Hk. apply (H (S k)). cbn. lia.
Qed.
(** ... and taking differences returns the thicknesses. *)
Theorem C103_exact_round_trip : forall e thk, (-1074 <= e)%Z -> Forall (multiple e) thk -> total thk <= bpow radix2 (53 + e) -> total thk < top64 ->
  thk <> [] -> val (last thk f0) = 0 -> exists dep thk', thk2dep_f thk false = Ok dep /\ dep2thk_f dep true = Ok thk' /\ map val thk' = map val thk.
Proof.
  intros e thk He H B T Ne Z0. assert (E : thk2dep_f thk false = Ok (tops f0 thk)) by (destruct thk; [contradiction|reflexivity]).
  exists (tops f0 thk), (diffs_f (tops f0 thk) ++ [f0]). split; [exact E|]. split; [destruct thk; [contradiction|reflexivity]|].
  pose proof (C103_exact_depths e thk _ He H B T E) as X. rewrite tops_length in X.
  assert (Len : length (diffs_f (tops f0 thk) ++ [f0]) = length thk). { rewrite app_length, diffs_length, tops_length. destruct thk; [contradiction|]. cbn. lia. }
  apply list_val_eq; [exact Len|]. rewrite Len. intros k L. destruct (Nat.eq_dec (S k) (length thk)) as [Q|Q].
  - rewrite app_nth2; rewrite diffs_length, tops_length; [|lia]. replace (k - Nat.pred (length thk))%nat with 0%nat by lia. cbn [nth].
    rewrite f0_val. rewrite <- Z0. f_equal. destruct (exists_last Ne) as (l & x & ->). rewrite last_last, app_length in *. cbn in Q. rewrite app_nth2 by lia. replace (k - length l)%nat with 0%nat by lia. reflexivity.
  - rewrite app_nth1 by (rewrite diffs_length, tops_length; lia). rewrite diffs_nth by (rewrite tops_length; lia).
    destruct (X k L) as [F1 V1], (X (S k) ltac:(lia)) as [F2 V2]. rewrite total_firstn_S in V2 by exact L.
    assert (D : val (nth (S k) (tops f0 thk) f0) - val (nth k (tops f0 thk) f0) = val (nth k thk f0)) by (rewrite V1, V2; ring).
    destruct (fsub_fin _ _ F2 F1) as [_ V]; rewrite D, (rnd_id _ (val_dbl _)) in *; [apply val_lt_top|exact V].
Qed.

(** In general the recovered thickness is not negative and close to the thickness in
    proportion to the depth, not to the thickness ... *)
Theorem C103_recovered : forall thk dep thk' k, Forall thickness thk -> thk2dep_f thk false = Ok dep -> dep2thk_f dep true = Ok thk' ->
  Forall (fun d => fin d = true) dep -> (S k < length thk)%nat ->
  fin (nth k thk' f0) = true /\ 0 <= val (nth k thk' f0) /\
  Rabs (val (nth k thk' f0) - val (nth k thk f0)) <= 2 * ueps * (val (nth k dep f0) + val (nth k thk f0)).
Proof.
  intros thk dep thk' k H E E' Fd L. apply thk2dep_tops in E as [Ne ->]. apply dep2thk_ok in E' as (-> & _ & _).
  rewrite app_nth1 by (rewrite diffs_length, tops_length; lia). rewrite diffs_nth by (rewrite tops_length; lia).
  assert (St : forall thk acc k, (S k < length thk)%nat -> nth (S k) (tops acc thk) f0 = fadd (nth k (tops acc thk) f0) (nth k thk f0)).
  { clear. induction thk as [|t r IH]; intros acc k L; [cbn in L; lia|]. destruct r as [|t' r]; [cbn in L; lia|].
    destruct k as [|k]; [reflexivity|]. cbn [tops nth]. change (nth (S k) (tops (fadd acc t) (t' :: r)) f0 = fadd (nth k (tops (fadd acc t) (t' :: r)) f0) (nth k (t' :: r) f0)). apply IH. cbn in L |- *. lia. }
  pose proof (St thk f0 k L) as Sk. clear St.
  assert (Fk : fin (nth k (tops f0 thk) f0) = true) by (rewrite Forall_forall in Fd; apply Fd, nth_In; rewrite tops_length; lia).
  assert (Fk' : fin (nth (S k) (tops f0 thk) f0) = true) by (rewrite Forall_forall in Fd; apply Fd, nth_In; rewrite tops_length; lia).
  assert (Gk : 0 <= val (nth k (tops f0 thk) f0)).
  { rewrite <- f0_val. apply fle_val; [reflexivity|exact Fk|]. assert (N : Forall (fun t => fle f0 t = true) thk) by (eapply Forall_impl; [|exact H]; apply thickness_ge0).
    apply (tops_nonneg f0 thk eq_refl) in N. rewrite Forall_forall in N. apply N, nth_In. rewrite tops_length. lia. }
  assert (Tk : thickness (nth k thk f0)) by (rewrite Forall_forall in H; apply H, nth_In; lia). destruct Tk as [Ft Vt].
  set (d := nth k (tops f0 thk) f0) in *. set (t := nth k thk f0) in *. set (d' := nth (S k) (tops f0 thk) f0) in *.
  assert (Vd : val d' = rnd (val d + val t)) by (rewrite Sk; apply fadd_val; [exact Fk|exact Ft|rewrite <- Sk; exact Fk']).
  assert (Le : val d <= val d') by (rewrite Vd, <- (rnd_id (val d)) at 1 by apply val_dbl; apply rnd_mono; lra).
  destruct (rnd_plus (val d) (val t) (val_dbl _) (val_dbl _)) as (e1 & He1 & E1).
  assert (N : dbl (- val d)) by (apply generic_format_opp, val_dbl).
  destruct (rnd_plus (val d') (- val d) (val_dbl _) N) as (e2 & He2 & E2). fold (val d' - val d) in E2.
  assert (Lt : Rabs (rnd (val d' - val d)) < top64).
  { rewrite Rabs_pos_eq by (apply rnd_nonneg; lra). apply Rle_lt_trans with (val d').
    - rewrite <- (rnd_id (val d')) at 2 by apply val_dbl. apply rnd_mono. lra.
    - eapply Rle_lt_trans; [apply Rle_abs|apply val_lt_top]. }
  destruct (fsub_fin d' d Fk' Fk Lt) as [Fh Vh]. split; [exact Fh|]. rewrite Vh. split; [apply rnd_nonneg; lra|].
  rewrite E2, Vd, E1. pose proof ueps_pos as U. pose proof ueps_ratio as Ur.
  assert (Q : ueps / (1 + ueps) * (1 + ueps) = ueps) by (field; lra). set (w := ueps / (1 + ueps)) in *.
  apply Rabs_le_inv in He1, He2. replace (((val d + val t) * (1 + e1) - val d) * (1 + e2) - val t) with (val t * e2 + (val d + val t) * (e1 * (1 + e2))) by ring.
  assert (P : - ueps <= e1 * (1 + e2) <= ueps).
  { assert (0 <= 1 + e2 <= 1 + ueps) by (pose proof ueps_small; lra). split; nra. }
  apply Rabs_le. split; nra.
Qed.

(** ... so the round trip is not the identity: 0.1 m and 0.2 m; and a positive thickness can
    get lost: 1 m and 2^-53 m. *)
Definition tenth : f64 := lit 7205759403792794 (-56).
Definition fifth : f64 := lit 7205759403792794 (-55).
Theorem C103_round_trip_refuted : exists thk dep thk', Forall (fun t => fle f0 t = true) thk /\ thk2dep_f thk false = Ok dep /\ dep2thk_f dep true = Ok thk' /\
  feq (nth 1 thk' f0) (nth 1 thk f0) = false /\ nth 1 thk f0 = fifth.
Proof.
  exists [tenth; fifth; f0]. eexists. eexists. split; [repeat (apply Forall_cons; [vm_compute; reflexivity|]); apply Forall_nil|].
  split; [reflexivity|]. split; [reflexivity|]. split; [vm_compute; reflexivity|reflexivity].
Qed.
Theorem C103_layer_lost : exists thk dep thk', Forall (fun t => fle f0 t = true) thk /\ thk2dep_f thk false = Ok dep /\ dep2thk_f dep true = Ok thk' /\
  flt f0 (nth 1 thk f0) = true /\ feq (nth 1 thk' f0) f0 = true /\ feq (nth 1 dep f0) (nth 2 dep f0) = true.
Proof.
  exists [lit 1 0; lit 1 (-53); f0]. eexists. eexists. split; [repeat (apply Forall_cons; [vm_compute; reflexivity|]); apply Forall_nil|].
  split; [reflexivity|]. split; [reflexivity|]. split; [vm_compute; reflexivity|]. split; vm_compute; reflexivity.
Qed.

(** From depths to thicknesses and back: depths that at most double from one interface to the
    next are recovered exactly (differences of such numbers are exact). *)
Lemma tops_of_diffs d : d <> [] -> Forall (fun x => fin x = true) d ->
  (forall k, (S k < length d)%nat -> val (nth k d f0) <= val (nth (S k) d f0) <= 2 * val (nth k d f0)) -> 0 <= val (hd f0 d) ->
  forall acc, fin acc = true -> val acc = val (hd f0 d) -> map val (tops acc (diffs_f d ++ [f0])) = map val d.
Proof.
  induction d as [|x r IH]; intros Ne F H P acc Fa Va; [contradiction|]. cbn [hd] in *. destruct r as [|y r].
  - cbn. rewrite Va. reflexivity.
  - inversion F as [|? ? Fx Fr]; subst. inversion Fr as [|? ? Fy _]; subst.
    change (diffs_f (x :: y :: r)) with (fsub y x :: diffs_f (y :: r)). cbn [app tops map]. rewrite Va. f_equal.
    pose proof (H 0%nat ltac:(cbn; lia)) as H0. cbn [nth] in H0.
    assert (D : dbl (val y - val x)) by (apply sterbenz; [typeclasses eauto|typeclasses eauto|apply val_dbl|apply val_dbl|lra]).
    assert (Lt : Rabs (rnd (val y - val x)) < top64).
    { rewrite (rnd_id _ D), Rabs_pos_eq by lra. apply Rle_lt_trans with (val y); [lra|]. eapply Rle_lt_trans; [apply Rle_abs|apply val_lt_top]. }
    destruct (fsub_fin y x Fy Fx Lt) as [Fs Vs]. rewrite (rnd_id _ D) in Vs.
    assert (Sm : val acc + val (fsub y x) = val y) by (rewrite Va, Vs; ring).
    destruct (fadd_fin acc (fsub y x) Fa Fs) as [Fb Vb]. { rewrite Sm, (rnd_id _ (val_dbl _)). apply val_lt_top. }
    rewrite Sm, (rnd_id _ (val_dbl _)) in Vb. apply IH; [discriminate|exact Fr| |cbn [hd]; lra|exact Fb|exact Vb].
    intros k L. apply (H (S k)). cbn in L |- *. lia.
Qed.
Theorem C103_depths_recovered : forall d, Forall (fun x => fin x = true) d -> (2 <= length d)%nat -> val (nth 0 d f0) = 0 -> 0 <= val (nth 1 d f0) ->
  (forall k, (1 <= k)%nat -> (S k < length d)%nat -> val (nth k d f0) <= val (nth (S k) d f0) <= 2 * val (nth k d f0)) ->
  exists thk d', dep2thk_f d true = Ok thk /\ thk2dep_f thk false = Ok d' /\ map val d' = map val d.
Proof.
  intros d F L Z0 P H. destruct d as [|x [|y r]]; cbn [length nth] in *; try lia.
  inversion F as [|? ? Fx Fr]; subst. inversion Fr as [|? ? Fy _]; subst.
  assert (E0 : feq x f0 = true) by (apply feq_val; [exact Fx|reflexivity|exact Z0]).
  exists (diffs_f (x :: y :: r) ++ [f0]). exists (tops f0 (diffs_f (x :: y :: r) ++ [f0])).
  split; [unfold dep2thk_f; rewrite E0; reflexivity|]. split; [reflexivity|].
  change (diffs_f (x :: y :: r)) with (fsub y x :: diffs_f (y :: r)). cbn [app tops map]. rewrite f0_val. f_equal; [symmetry; exact Z0|].
  assert (D : val y - val x = val y) by (rewrite Z0; ring).
  destruct (fsub_fin y x Fy Fx) as [Fs Vs]. { rewrite D, (rnd_id _ (val_dbl _)). apply val_lt_top. } rewrite D, (rnd_id _ (val_dbl _)) in Vs.
  assert (Sm : val f0 + val (fsub y x) = val y) by (rewrite f0_val, Vs; ring).
  destruct (fadd_fin f0 (fsub y x) eq_refl Fs) as [Fb Vb]. { rewrite Sm, (rnd_id _ (val_dbl _)). apply val_lt_top. } rewrite Sm, (rnd_id _ (val_dbl _)) in Vb.
  apply tops_of_diffs; [discriminate|exact Fr| |exact P|exact Fb|exact Vb]. intros k Lk. apply (H (S k)); [lia|]. cbn in Lk |- *. lia.
Qed.

(** Middle depths lie between the top of the layer and the top of the next one. *)
Lemma f2_ok : fin f2 = true /\ val f2 = 2.
Proof. destruct (lit_ok 1 1 ltac:(cbn; lia) ltac:(lia)) as [F V]. split; [exact F|]. unfold f2. rewrite V. change (bpow radix2 1) with 2. ring. Qed.
Lemma half_ok t : thickness t -> thickness (fdiv t f2) /\ val (fdiv t f2) <= val t.
Proof.
  intros [F V]. destruct f2_ok as [F2 V2]. assert (H : 0 <= rnd (val t / val f2) <= val t).
  { apply rnd_between; [apply dbl_0|apply val_dbl|]. rewrite V2. lra. }
  destruct (fdiv_fin t f2 F ltac:(lra)) as [Fh Vh].
  { rewrite Rabs_pos_eq by lra. eapply Rle_lt_trans; [apply H|]. eapply Rle_lt_trans; [apply Rle_abs|apply val_lt_top]. }
  split; [split; [exact Fh|]|]; rewrite Vh; apply H.
Qed.
Lemma mid_step acc t : thickness acc -> thickness t -> fin (fadd acc t) = true ->
  fin (fadd acc (fdiv t f2)) = true /\ val acc <= val (fadd acc (fdiv t f2)) <= val (fadd acc t).
Proof.
  intros [Fa Va] Ht F. pose proof Ht as [Ft Vt]. destruct (half_ok t Ht) as [[Fh Vh] Lh]. rewrite (fadd_val acc t Fa Ft F).
  assert (L : val acc <= rnd (val acc + val (fdiv t f2)) <= rnd (val acc + val t)).
  { split; [rewrite <- (rnd_id (val acc)) at 1 by apply val_dbl|]; apply rnd_mono; lra. }
  destruct (fadd_fin acc (fdiv t f2) Fa Fh) as [Fm Vm].
  { rewrite Rabs_pos_eq by lra. eapply Rle_lt_trans; [apply L|]. rewrite <- (fadd_val acc t Fa Ft F). eapply Rle_lt_trans; [apply Rle_abs|apply val_lt_top]. }
  split; [exact Fm|]. rewrite Vm. exact L.
Qed.
Theorem C103_middle_between : forall thk dep mid k, Forall thickness thk -> thk2dep_f thk false = Ok dep -> thk2dep_f thk true = Ok mid ->
  Forall (fun d => fin d = true) dep -> (S k < length thk)%nat ->
  (k < length mid)%nat /\ fin (nth k mid f0) = true /\ val (nth k dep f0) <= val (nth k mid f0) <= val (nth (S k) dep f0).
Proof.
  intros thk dep mid k H E E' Fd L. apply thk2dep_tops in E as [Ne ->].
  assert (Q : mid = mids f0 thk).
  { destruct thk; [contradiction|]. unfold thk2dep_f in E'. symmetry. exact (f_equal (fun x => match x with Ok y => y | Err _ => [] end) E'). }
  rewrite Q. clear E' Q mid Ne.
  assert (G : forall acc, thickness acc -> Forall (fun d => fin d = true) (tops acc thk) ->
    (k < length (mids acc thk))%nat /\ fin (nth k (mids acc thk) f0) = true /\ val (nth k (tops acc thk) f0) <= val (nth k (mids acc thk) f0) <= val (nth (S k) (tops acc thk) f0)).
  { clear Fd. revert k L. induction thk as [|t r IH]; intros k L acc Ta Fd; [cbn in L; lia|]. destruct r as [|t' r]; [cbn in L; lia|].
    inversion H as [|? ? Ht Hr]; subst. change (tops acc (t :: t' :: r)) with (acc :: tops (fadd acc t) (t' :: r)) in *.
    change (mids acc (t :: t' :: r)) with (fadd acc (fdiv t f2) :: mids (fadd acc t) (t' :: r)).
    inversion Fd as [|? ? _ Fd']; subst. assert (Fs : fin (fadd acc t) = true) by (inversion Fd'; assumption).
    destruct k as [|k].
    - destruct (mid_step acc t Ta Ht Fs) as [Fm Lm]. split; [cbn; lia|]. split; [exact Fm|]. exact Lm.
    - destruct (IH Hr k ltac:(cbn in L |- *; lia) (fadd acc t) (fadd_thickness _ _ Ta Ht Fs) Fd') as (A & B & C). split; [cbn [length]; lia|]. split; [exact B|]. exact C. }
  exact (G f0 f0_thick Fd).
Qed.

(** The total depth (np.sum), however numpy groups the additions. *)
Lemma sums_fin_parts l s : sums l s -> fin s = true -> Forall (fun x => fin x = true) l.
Proof.
  induction 1 as [|x|a b x y _ IHa _ IHb|a b x Pm _ IH]; intros F.
  - constructor.
  - constructor; [exact F|constructor].
  - apply fadd_fin_inv in F as [Fx Fy]. apply Forall_app. split; auto.
  - eapply Permutation_Forall; [exact Pm|auto].
Qed.
Theorem C103_total_depth : forall l s, sums l s -> Forall thickness l -> fin s = true ->
  0 <= val s /\ Rabs (val s - total l) <= ((1 + ueps) ^ (Nat.pred (length l)) - 1) * total l.
Proof.
  intros l s H. pose proof ueps_pos as U. induction H as [|x|a b x y Ha IHa Hb IHb|a b x Pm Ha IH]; intros T F.
  - split; [rewrite f0_val; lra|]. cbn [total length Nat.pred pow]. rewrite f0_val, Rminus_0_r, Rabs_R0. lra.
  - inversion T as [|? ? [_ V] _]; subst. split; [exact V|]. cbn [total length Nat.pred pow]. rewrite Rplus_0_r, Rminus_eq_0, Rabs_R0. lra.
  - apply Forall_app in T as [Ta Tb]. pose proof (fadd_fin_inv x y F) as [Fx Fy]. destruct (IHa Ta Fx) as [Px Ex], (IHb Tb Fy) as [Py Ey].
    rewrite (fadd_val x y Fx Fy F). split; [apply rnd_nonneg; lra|]. rewrite total_app, app_length.
    pose proof (total_nonneg a Ta) as A0. pose proof (total_nonneg b Tb) as B0.
    destruct a as [|a0 a].
    { cbn [total length Nat.pred pow app] in *. rewrite Rmult_0_r in Ex. assert (val x = 0) by (apply Rabs_le_inv in Ex; lra).
      rewrite H. rewrite !Rplus_0_l, (rnd_id _ (val_dbl _)). exact Ey. }
    destruct b as [|b0 b].
    { cbn [total length Nat.pred pow app] in *. rewrite Rmult_0_r in Ey. assert (val y = 0) by (apply Rabs_le_inv in Ey; lra).
      rewrite H. rewrite !Rplus_0_r, (rnd_id _ (val_dbl _)). rewrite Nat.add_0_r. exact Ex. }
    set (n := Nat.pred (length (a0 :: a))) in *. set (m := Nat.pred (length (b0 :: b))) in *.
    replace (Nat.pred (length (a0 :: a) + length (b0 :: b))) with (S (n + m)) by (unfold n, m; cbn; lia).
    set (A := total (a0 :: a)) in *. set (B := total (b0 :: b)) in *.
    assert (M1 : (1 + ueps) ^ n <= (1 + ueps) ^ (n + m)) by (apply Rle_pow; [lra|lia]).
    assert (M2 : (1 + ueps) ^ m <= (1 + ueps) ^ (n + m)) by (apply Rle_pow; [lra|lia]).
    pose proof (E_ge1 (n + m)) as G1. set (E := (1 + ueps) ^ (n + m)) in *. cbn [pow]. fold E.
    assert (D : Rabs (val x + val y - (A + B)) <= (E - 1) * (A + B)).
    { apply Rabs_le_inv in Ex, Ey. assert (((1 + ueps) ^ n - 1) * A <= (E - 1) * A) by nra. assert (((1 + ueps) ^ m - 1) * B <= (E - 1) * B) by nra. apply Rabs_le. split; lra. }
    destruct (rnd_plus' (val x) (val y) (val_dbl _) (val_dbl _)) as (e & He & ->). apply Rabs_le_inv in D, He.
    set (X := val x + val y) in *. set (Y := A + B) in *. assert (Y0 : 0 <= Y) by (unfold Y; lra). assert (X0 : 0 <= X <= E * Y) by (unfold X in *; lra).
    assert (Q : - (ueps * (E * Y)) <= e * X <= ueps * (E * Y)) by (split; nra). apply Rabs_le. split; lra.
  - apply Permutation_sym in Pm. rewrite (Permutation_length Pm), (total_perm _ _ Pm). apply IH; [eapply Permutation_Forall; eassumption|exact F].
Qed.
(** With multiples of a power of two it does not depend on the grouping. *)
Theorem C103_exact_total : forall e l s, sums l s -> (-1074 <= e)%Z -> Forall (multiple e) l -> total l <= bpow radix2 (53 + e) -> total l < top64 ->
  fin s = true /\ val s = total l.
Proof.
  intros e l s H He. induction H as [|x|a b x y Ha IHa Hb IHb|a b x Pm Ha IH]; intros M B T.
  - split; [reflexivity|]. rewrite f0_val. reflexivity.
  - inversion M as [|? ? [F _] _]; subst. split; [exact F|]. cbn. lra.
  - apply Forall_app in M as [Ma Mb]. rewrite total_app in *.
    assert (Na : 0 <= total a) by (apply total_nonneg; eapply Forall_impl; [|exact Ma]; apply multiple_thickness).
    assert (Nb : 0 <= total b) by (apply total_nonneg; eapply Forall_impl; [|exact Mb]; apply multiple_thickness).
    destruct (IHa Ma ltac:(lra) ltac:(lra)) as [Fx Vx], (IHb Mb ltac:(lra) ltac:(lra)) as [Fy Vy].
    destruct (total_multiple e a Ma) as (ma & Hma & Ea), (total_multiple e b Mb) as (mb & Hmb & Eb).
    assert (D : dbl (val x + val y)).
    { rewrite Vx, Vy. apply (grid_dbl e _ He), (small_grid e _ (ma + mb)); [lia|rewrite Ea, Eb, plus_IZR; ring|exact B]. }
    destruct (fadd_fin x y Fx Fy) as [F V]. { rewrite (rnd_id _ D), Vx, Vy, Rabs_pos_eq; lra. }
    split; [exact F|]. rewrite V, (rnd_id _ D), Vx, Vy. reflexivity.
  - apply Permutation_sym in Pm. rewrite (total_perm _ _ Pm) in *. apply IH; [eapply Permutation_Forall; eassumption|exact B|exact T].
Qed.

(** Thicknesses in eighths of a metre; and depths in proportion at most 2. *)
Definition some_thk : list f64 := [lit 5 (-3); lit 20 (-3); f0].
Lemma some_multiple : Forall (multiple (-3)) some_thk.
Proof.
  unfold some_thk. repeat apply Forall_cons; try apply Forall_nil; [| |apply multiple_f0].
  - destruct (lit_ok 5 (-3) ltac:(cbn; lia) ltac:(lia)) as [F V]. split; [exact F|]. exists 5%Z. split; [lia|exact V].
  - destruct (lit_ok 20 (-3) ltac:(cbn; lia) ltac:(lia)) as [F V]. split; [exact F|]. exists 20%Z. split; [lia|exact V].
Qed.
Lemma some_total : total some_thk = 25 / 8.
Proof.
  unfold some_thk. cbn [total]. rewrite (proj2 (lit_ok 5 (-3) ltac:(cbn; lia) ltac:(lia))), (proj2 (lit_ok 20 (-3) ltac:(cbn; lia) ltac:(lia))), f0_val.
  change (bpow radix2 (-3)) with (/ 8). lra.
Qed.
Example C103_instance : Forall (multiple (-3)) some_thk /\ Forall thickness some_thk /\ total some_thk <= bpow radix2 (53 + -3) /\ total some_thk < top64 /\
  (exists dep, thk2dep_f some_thk false = Ok dep /\ fin (nth 2 dep f0) = true /\ val (nth 2 dep f0) = 25 / 8) /\
  sums some_thk (fadd (lit 5 (-3)) (fadd (lit 20 (-3)) f0)) /\
  thk2dep_f [] false = Err IndexError /\ dep2thk_f [tenth] true = Err ValueError.
Proof.
  pose proof some_total as T. pose proof some_multiple as M.
  assert (B1 : total some_thk <= bpow radix2 (53 + -3)). { rewrite T. apply Rle_trans with (bpow radix2 2); [change (bpow radix2 2) with 4; lra|apply bpow_le; lia]. }
  assert (B2 : total some_thk < top64). { rewrite T. apply Rlt_trans with (bpow radix2 2); [change (bpow radix2 2) with 4; lra|apply bpow_lt; lia]. }
  split; [exact M|]. split; [eapply Forall_impl; [|exact M]; apply multiple_thickness|]. split; [exact B1|]. split; [exact B2|]. split.
  - eexists. split; [reflexivity|]. destruct (C103_exact_depths (-3) some_thk _ ltac:(lia) M B1 B2 eq_refl 2%nat ltac:(cbn; lia)) as [F V]. split; [exact F|].
    refine (eq_trans V _). rewrite <- T. unfold some_thk. cbn [firstn total]. rewrite f0_val. ring.
  - split; [|split; [reflexivity|]].
    + apply (sums_app [_] [_; _]); [constructor|]. apply (sums_app [_] [_]); constructor.
    + unfold dep2thk_f. replace (feq tenth f0) with false by (vm_compute; reflexivity). reflexivity.
Qed.
