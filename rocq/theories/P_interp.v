(** Lemmas about [np.interp] and query grids. *)
From Coq Require Import Reals List Bool ZArith Lia Lra.
From Verif Require Import Base M_generic M_motion M_soil M_interp P_soil.
Import ListNotations.
Open Scope R_scope.

(** Strictly increasing abscissae. *)
Definition incr (pts : list (R * R)) : Prop :=
  forall k, (S k < length pts)%nat -> fst (nth k pts (0, 0)) < fst (nth (S k) pts (0, 0)).

(** Independent description of piecewise-linear interpolation with constant ends. *)
Inductive pl_value (pts : list (R * R)) (x : R) : R -> Prop :=
| PL_left y0 x0 rest : pts = (x0, y0) :: rest -> x <= x0 -> pl_value pts x y0
| PL_right k : S k = length pts -> fst (nth k pts (0, 0)) <= x -> pl_value pts x (snd (nth k pts (0, 0)))
| PL_mid k t : (S k < length pts)%nat -> 0 <= t <= 1 ->
    x = (1 - t) * fst (nth k pts (0, 0)) + t * fst (nth (S k) pts (0, 0)) ->
    pl_value pts x ((1 - t) * snd (nth k pts (0, 0)) + t * snd (nth (S k) pts (0, 0))).

Lemma incr_tail p pts : incr (p :: pts) -> incr pts.
Proof. intros H k Hk. apply (H (S k)). cbn. lia. Qed.

Lemma interp_from_spec x rest : forall x0 y0, x0 <= x -> incr ((x0, y0) :: rest) ->
  pl_value ((x0, y0) :: rest) x (interp_from x x0 y0 rest).
Proof.
  induction rest as [|[x1 y1] rest IH]; intros x0 y0 Hx Hi; cbn [interp_from].
  - apply (PL_right [(x0, y0)] x 0); cbn; auto.
  - pose proof (Hi 0%nat ltac:(cbn; lia)) as H01. cbn in H01. destruct (Rltb_spec x x1) as [H1|H1].
    + set (t := (x - x0) / (x1 - x0)).
      assert (Ht : 0 <= t <= 1).
      { split; [apply Rmult_le_pos; [lra|apply Rlt_le, Rinv_0_lt_compat; lra]|].
        apply Rmult_le_reg_r with (x1 - x0); [lra|]. unfold t. unfold Rdiv. rewrite Rmult_assoc, Rinv_l by lra. lra. }
      pose proof (PL_mid ((x0, y0) :: (x1, y1) :: rest) x 0 t ltac:(cbn; lia) Ht) as X. cbn [nth fst snd] in X.
      assert (Ex : x = (1 - t) * x0 + t * x1) by (unfold t; field; lra). specialize (X Ex).
      replace (if Reqb x x0 then y0 else _) with ((1 - t) * y0 + t * y1); [exact X|].
      destruct (Reqb_spec x x0) as [E|E].
      * assert (t = 0) by (unfold t; rewrite E; field; lra). rewrite H. lra.
      * unfold t. field. lra.
    + specialize (IH x1 y1 ltac:(lra) (incr_tail _ _ Hi)). inversion IH as [y2 x2 r2 E2 Hle Ey|k Hk Hle Ey|k t Hk Ht Ex Ey].
      * injection E2 as <- <- <-. assert (x = x1) by lra. subst x.
        pose proof (PL_mid ((x0, y0) :: (x1, y1) :: rest) x1 0 1 ltac:(cbn; lia) ltac:(lra)) as X. cbn [nth fst snd] in X.
        replace ((1 - 1) * y0 + 1 * y1) with y1 in X by ring. apply X. ring.
      * apply (PL_right ((x0, y0) :: (x1, y1) :: rest) x (S k)); cbn [length] in *; [lia|exact Hle].
      * apply (PL_mid ((x0, y0) :: (x1, y1) :: rest) x (S k) t); cbn [length] in *; [lia|exact Ht|exact Ex].
Qed.

Lemma interp1_spec pts x : incr pts -> pts <> [] -> exists y, interp1 pts x = Ok y /\ pl_value pts x y.
Proof.
  destruct pts as [|[x0 y0] rest]; [congruence|]. intros Hi _. unfold interp1. destruct (Rltb_spec x x0) as [H|H].
  - exists y0. split; [reflexivity|]. apply (PL_left _ x y0 x0 rest); [reflexivity|lra].
  - eexists. split; [reflexivity|]. apply interp_from_spec; [lra|exact Hi].
Qed.

Lemma nth_P (P : R * R -> Prop) pts k : Forall P pts -> (k < length pts)%nat -> P (nth k pts (0, 0)).
Proof. intros H Hk. eapply (proj1 (Forall_forall _ _) H), nth_In, Hk. Qed.

(** Bounds on the data carry over. *)
Lemma pl_bounds pts x y lo hi : pl_value pts x y -> Forall (fun p => lo <= snd p <= hi) pts -> lo <= y <= hi.
Proof.
  intros [y0 x0 rest E H|k Hk H|k t Hk Ht Ex] HF.
  - subst pts. apply Forall_inv in HF. exact HF.
  - apply (nth_P _ _ k HF). lia.
  - pose proof (nth_P _ _ k HF ltac:(lia)) as A. pose proof (nth_P _ _ (S k) HF ltac:(lia)) as B. cbn beta in A, B. nra.
Qed.

Lemma incr_lt pts i j : incr pts -> (i < j)%nat -> (j < length pts)%nat -> fst (nth i pts (0, 0)) < fst (nth j pts (0, 0)).
Proof.
  intros H Hij Hj. induction j as [|j IH]; [lia|]. destruct (Nat.eq_dec i j) as [->|Hne]; [apply H; lia|].
  eapply Rlt_trans; [apply IH; lia|apply H; lia].
Qed.

(** Exact at the samples. *)
Lemma pl_at_node pts k y : incr pts -> (k < length pts)%nat -> pl_value pts (fst (nth k pts (0, 0))) y -> y = snd (nth k pts (0, 0)).
Proof.
  intros Hi Hk Hp. inversion Hp as [y0 x0 rest E H|j Hj H|j t Hj Ht Ex].
  - destruct k as [|k]; [rewrite E; reflexivity|]. exfalso. pose proof (incr_lt pts 0 (S k) Hi ltac:(lia) Hk) as X.
    rewrite E in X at 1. cbn in X. lra.
  - destruct (Nat.eq_dec k j) as [->|Hne]; [reflexivity|]. pose proof (incr_lt pts k j Hi ltac:(lia) ltac:(lia)). lra.
  - pose proof (Hi j Hj) as Hs. destruct (lt_eq_lt_dec k j) as [[L|E]|L].
    + pose proof (incr_lt pts k j Hi L ltac:(lia)). nra.
    + subst k. assert (t * (fst (nth (S j) pts (0, 0)) - fst (nth j pts (0, 0))) = 0) by lra.
      apply Rmult_integral in H0 as [->|]; [ring|lra].
    + destruct (Nat.eq_dec k (S j)) as [->|Hne].
      * assert ((1 - t) * (fst (nth (S j) pts (0, 0)) - fst (nth j pts (0, 0))) = 0) by lra.
        apply Rmult_integral in H0 as [Z|]; [|lra]. assert (t = 1) by lra. subst t. ring.
      * pose proof (incr_lt pts (S j) k Hi ltac:(lia) Hk). nra.
Qed.


(** Monotone data give a monotone interpolant. *)
Definition ydecr (pts : list (R * R)) : Prop :=
  forall k, (S k < length pts)%nat -> snd (nth (S k) pts (0, 0)) <= snd (nth k pts (0, 0)).
Lemma ydecr_tail p pts : ydecr (p :: pts) -> ydecr pts.
Proof. intros H k Hk. apply (H (S k)). cbn. lia. Qed.

Lemma interp_from_le_first x rest : forall x0 y0, x0 <= x -> incr ((x0, y0) :: rest) -> ydecr ((x0, y0) :: rest) ->
  interp_from x x0 y0 rest <= y0.
Proof.
  induction rest as [|[x1 y1] rest IH]; intros x0 y0 Hx Hi Hd; cbn [interp_from]; [lra|].
  pose proof (Hi 0%nat ltac:(cbn; lia)) as A. pose proof (Hd 0%nat ltac:(cbn; lia)) as B. cbn in A, B.
  destruct (Rltb_spec x x1) as [H1|H1].
  - destruct (Reqb_spec x x0); [lra|]. assert (0 <= (y0 - y1) / (x1 - x0)) by (apply Rmult_le_pos; [lra|apply Rlt_le, Rinv_0_lt_compat; lra]).
    replace ((y1 - y0) / (x1 - x0)) with (- ((y0 - y1) / (x1 - x0))) by (field; lra). nra.
  - eapply Rle_trans; [apply IH; [lra|eapply incr_tail; eauto|eapply ydecr_tail; eauto]|exact B].
Qed.

Lemma interp_from_decr x x' rest : forall x0 y0, x0 <= x -> x <= x' -> incr ((x0, y0) :: rest) -> ydecr ((x0, y0) :: rest) ->
  interp_from x' x0 y0 rest <= interp_from x x0 y0 rest.
Proof.
  induction rest as [|[x1 y1] rest IH]; intros x0 y0 Hx Hxx Hi Hd; cbn [interp_from]; [lra|].
  pose proof (Hi 0%nat ltac:(cbn; lia)) as A. pose proof (Hd 0%nat ltac:(cbn; lia)) as B. cbn in A, B.
  assert (S0 : 0 <= (y0 - y1) / (x1 - x0)) by (apply Rmult_le_pos; [lra|apply Rlt_le, Rinv_0_lt_compat; lra]).
  assert (Hs : (y1 - y0) / (x1 - x0) = - ((y0 - y1) / (x1 - x0))) by (field; lra).
  assert (Hv : (y0 - y1) / (x1 - x0) * (x1 - x0) = y0 - y1) by (field; lra).
  destruct (Rltb_spec x' x1) as [H1|H1].
  - destruct (Rltb_spec x x1) as [H2|H2]; [|lra].
    destruct (Reqb_spec x' x0), (Reqb_spec x x0); rewrite ?Hs; try lra; nra.
  - destruct (Rltb_spec x x1) as [H2|H2].
    + eapply Rle_trans; [apply interp_from_le_first; [lra|eapply incr_tail; eauto|eapply ydecr_tail; eauto]|].
      destruct (Reqb_spec x x0); [lra|]. rewrite Hs. nra.
    + apply IH; [lra|lra|eapply incr_tail; eauto|eapply ydecr_tail; eauto].
Qed.

Lemma interp1_decr pts x x' y y' : incr pts -> ydecr pts -> x <= x' -> interp1 pts x = Ok y -> interp1 pts x' = Ok y' -> y' <= y.
Proof.
  destruct pts as [|[x0 y0] rest]; [discriminate|]. unfold interp1. intros Hi Hd Hx E E'. injection E as <-. injection E' as <-.
  destruct (Rltb_spec x' x0), (Rltb_spec x x0); try lra.
  - apply interp_from_le_first; auto; lra.
  - apply interp_from_decr; auto; lra.
Qed.

Lemma np_interp_ok pts xs : pts <> [] -> exists ys, np_interp pts xs = Ok ys /\ length ys = length xs /\
  forall k, (k < length xs)%nat -> interp1 pts (nth k xs 0) = Ok (nth k ys 0).
Proof.
  intros Hne. unfold np_interp. destruct pts as [|p pts]; [congruence|]. clear Hne. induction xs as [|x xs IH].
  - exists []. repeat split. cbn. intros; lia.
  - destruct IH as (ys & E & L & H). destruct p as [x0 y0].
    eexists (_ :: ys). cbn [map_res interp1 bind]. cbn [interp1 map_res bind] in E. rewrite E. cbn [bind]. split; [reflexivity|].
    split; [cbn; lia|]. intros [|k] Hk; cbn [nth length] in *; [reflexivity|apply H; lia].
Qed.

Lemma linspace_length a b n : length (linspace a b n) = n.
Proof. unfold linspace. rewrite map_length, seq_length. reflexivity. Qed.
Lemma linspace_nth' a b n k : (k < n)%nat -> (2 <= n)%nat -> nth k (linspace a b n) 0 = a + INR k * ((b - a) / INR (n - 1)).
Proof.
  intros Hk Hn. unfold linspace. set (f := fun i => _).
  rewrite (nth_indep _ 0 (f 0%nat)) by (rewrite map_length, seq_length; exact Hk). rewrite map_nth, seq_nth by exact Hk.
  unfold f. cbn [Nat.add]. destruct (Nat.eqb_spec n 1); [lia|reflexivity].
Qed.
