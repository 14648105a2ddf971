(** Common vocabulary of the model: exceptions as values, decidable comparisons
    on the reals, extended (IEEE-like) numbers, NumPy list primitives.  *)
From Coq Require Import Reals List Bool ZArith Lia Lra.
Import ListNotations.
Open Scope R_scope.

(** ** Exceptions
    Python exceptions raised by the modelled code (only the class is kept, the
    message is dropped). *)
Inductive exn : Set :=
| TypeError | ValueError | IndexError | KeyError | AssertionError
| UnboundLocalError | ZeroDivisionError | AttributeError
| FileExistsError | FileNotFoundError | NotImplementedError | OSError_
| OverflowError.

Inductive res (A : Type) : Type :=
| Ok (a : A)
| Err (e : exn).
Arguments Ok {A} a.
Arguments Err {A} e.

Definition bind {A B : Type} (x : res A) (f : A -> res B) : res B :=
  match x with Ok a => f a | Err e => Err e end.

Declare Scope res_scope.
Delimit Scope res_scope with res.
Notation "'let!' x ':=' e1 'in' e2" := (bind e1 (fun x => e2))
  (at level 61, x pattern, e1 at next level, right associativity) : res_scope.
Notation "'assert!' b 'else' e 'in' e2" := (if b then e2 else Err e)
  (at level 61, b at next level, e at next level, right associativity) : res_scope.
Open Scope res_scope.

Definition is_ok {A} (x : res A) : bool := match x with Ok _ => true | Err _ => false end.

(** ** Decidable comparisons on the reals *)
Definition Rltb (x y : R) : bool := if Rlt_dec x y then true else false.
Definition Rleb (x y : R) : bool := if Rle_dec x y then true else false.
Definition Reqb (x y : R) : bool := if Req_EM_T x y then true else false.

Lemma Rltb_spec x y : reflect (x < y) (Rltb x y).
Proof. unfold Rltb; destruct Rlt_dec; constructor; auto. Qed.
Lemma Rleb_spec x y : reflect (x <= y) (Rleb x y).
Proof. unfold Rleb; destruct Rle_dec; constructor; auto. Qed.
Lemma Reqb_spec x y : reflect (x = y) (Reqb x y).
Proof. unfold Reqb; destruct Req_EM_T; constructor; auto. Qed.

Lemma Rltb_true x y : Rltb x y = true <-> x < y.
Proof. destruct (Rltb_spec x y); split; auto; discriminate. Qed.
Lemma Rltb_false x y : Rltb x y = false <-> y <= x.
Proof. destruct (Rltb_spec x y); split; try discriminate; try lra; auto. Qed.
Lemma Rleb_true x y : Rleb x y = true <-> x <= y.
Proof. destruct (Rleb_spec x y); split; auto; discriminate. Qed.
Lemma Rleb_false x y : Rleb x y = false <-> y < x.
Proof. destruct (Rleb_spec x y); split; try discriminate; try lra; auto. Qed.
Lemma Reqb_true x y : Reqb x y = true <-> x = y.
Proof. destruct (Reqb_spec x y); split; auto; discriminate. Qed.
Lemma Reqb_false x y : Reqb x y = false <-> x <> y.
Proof. destruct (Reqb_spec x y); split; auto; try discriminate; try contradiction. Qed.

(** Decide all real comparisons in sight whose outcome follows by [lra]. *)
Ltac rdec1 :=
  match goal with
  | |- context [Rltb ?x ?y] =>
      first [ replace (Rltb x y) with true by (symmetry; apply Rltb_true; lra)
            | replace (Rltb x y) with false by (symmetry; apply Rltb_false; lra) ]
  | |- context [Rleb ?x ?y] =>
      first [ replace (Rleb x y) with true by (symmetry; apply Rleb_true; lra)
            | replace (Rleb x y) with false by (symmetry; apply Rleb_false; lra) ]
  | |- context [Reqb ?x ?y] =>
      first [ replace (Reqb x y) with true by (symmetry; apply Reqb_true; lra)
            | replace (Reqb x y) with false by (symmetry; apply Reqb_false; lra) ]
  end.
Ltac rdec := repeat (rdec1; cbn [andb orb negb]).

(** ** Extended numbers: what a NumPy float64 cell can hold (signed zeros are
    identified, finite values are exact reals). *)
Inductive num : Type :=
| Fin (r : R)
| NaN
| PInf
| NInf.

(** IEEE comparison [x < y]: false as soon as one side is NaN. *)
Definition nltb (x y : num) : bool :=
  match x, y with
  | NaN, _ | _, NaN => false
  | Fin a, Fin b => Rltb a b
  | Fin _, PInf => true
  | Fin _, NInf => false
  | PInf, _ => false
  | NInf, NInf => false
  | NInf, _ => true
  end.

(** IEEE comparison [x <= y]. *)
Definition nleb (x y : num) : bool :=
  match x, y with
  | NaN, _ | _, NaN => false
  | Fin a, Fin b => Rleb a b
  | Fin _, PInf => true
  | Fin _, NInf => false
  | PInf, PInf => true
  | PInf, _ => false
  | NInf, _ => true
  end.

(** [np.isfinite] on one cell. *)
Definition nfinite (x : num) : bool := match x with Fin _ => true | _ => false end.

(** ** NumPy arrays as lists *)

(** Sum of a 1-D array, [np.sum]. *)
Fixpoint rsum (l : list R) : R :=
  match l with [] => 0 | x :: l' => x + rsum l' end.

(** [np.cumsum], running sum started at [s]. *)
Fixpoint cumsum_from (s : R) (l : list R) : list R :=
  match l with [] => [] | x :: l' => (s + x) :: cumsum_from (s + x) l' end.
Definition cumsum (l : list R) : list R := cumsum_from 0 l.

(** [np.max(np.abs(l))]-style maximum with a starting value. *)
Fixpoint rmax_from (m : R) (l : list R) : R :=
  match l with [] => m | x :: l' => rmax_from (Rmax m x) l' end.
Fixpoint rmin_from (m : R) (l : list R) : R :=
  match l with [] => m | x :: l' => rmin_from (Rmin m x) l' end.

(** Element access; an out-of-range index is an [IndexError]. *)
Definition get {A} (l : list A) (i : nat) : res A :=
  match nth_error l i with Some x => Ok x | None => Err IndexError end.

(** Python slice [l[a:b]] with 0 <= a (non-negative bounds, clamped). *)
Definition slice {A} (a b : nat) (l : list A) : list A := firstn (b - a) (skipn a l).

(** Last element and all-but-last, [l[-1]] and [l[:-1]]. *)
Definition last_res {A} (l : list A) : res A :=
  match rev l with [] => Err IndexError | x :: _ => Ok x end.

Fixpoint map_res {A B} (f : A -> res B) (l : list A) : res (list B) :=
  match l with
  | [] => Ok []
  | x :: l' => let! y := f x in let! ys := map_res f l' in Ok (y :: ys)
  end.

(** Small numerals as reals, [INR] being awkward for [lra]. *)
Definition nr (n : nat) : R := INR n.

(** ** Facts used everywhere *)

Lemma rsum_app l1 l2 : rsum (l1 ++ l2) = rsum l1 + rsum l2.
Proof. induction l1; cbn; lra. Qed.

Lemma rsum_nonneg l : Forall (fun x => 0 <= x) l -> 0 <= rsum l.
Proof. induction 1; cbn; lra. Qed.

Lemma rsum_repeat x n : rsum (repeat x n) = INR n * x.
Proof. induction n as [|n IH]; [cbn; lra|]. rewrite S_INR. cbn [repeat rsum]. lra. Qed.

Lemma cumsum_from_length s l : length (cumsum_from s l) = length l.
Proof. revert s; induction l; cbn; auto. Qed.

Lemma cumsum_from_nth l : forall s k d, (k < length l)%nat ->
  nth k (cumsum_from s l) d = s + rsum (firstn (S k) l).
Proof.
  induction l as [|x l IH]; cbn; intros s k d Hk; [lia|].
  destruct k as [|k]; [cbn; lra|].
  rewrite IH by lia. cbn. lra.
Qed.

Lemma rmax_from_ge l : forall m, m <= rmax_from m l.
Proof.
  induction l as [|x l IH]; cbn; intros m; [lra|].
  eapply Rle_trans; [apply Rmax_l|apply IH].
Qed.

Lemma rmax_from_in l : forall m x, In x l -> x <= rmax_from m l.
Proof.
  induction l as [|y l IH]; cbn; intros m x []; subst.
  - eapply Rle_trans; [apply Rmax_r|apply rmax_from_ge].
  - apply IH; auto.
Qed.

Lemma rmax_from_witness l : forall m, rmax_from m l = m \/ In (rmax_from m l) l.
Proof.
  induction l as [|y l IH]; cbn; intros m; [auto|].
  destruct (IH (Rmax m y)) as [E|E]; [|auto].
  rewrite E. unfold Rmax; destruct Rle_dec; auto.
Qed.

Lemma rmin_from_le l : forall m, rmin_from m l <= m.
Proof.
  induction l as [|x l IH]; cbn; intros m; [lra|].
  eapply Rle_trans; [apply IH|apply Rmin_l].
Qed.

Lemma rmin_from_in l : forall m x, In x l -> rmin_from m l <= x.
Proof.
  induction l as [|y l IH]; cbn; intros m x []; subst.
  - eapply Rle_trans; [apply rmin_from_le|apply Rmin_r].
  - apply IH; auto.
Qed.

Lemma get_ok {A} (l : list A) i d : (i < length l)%nat -> get l i = Ok (nth i l d).
Proof.
  intros H. unfold get. rewrite (nth_error_nth' l d H). reflexivity.
Qed.

Lemma get_err {A} (l : list A) i : (length l <= i)%nat -> get l i = Err IndexError.
Proof. intros H. unfold get. apply nth_error_None in H. rewrite H. reflexivity. Qed.

Lemma bind_ok {A B} (x : res A) (f : A -> res B) b :
  bind x f = Ok b <-> exists a, x = Ok a /\ f a = Ok b.
Proof.
  destruct x; cbn; split.
  - eauto.
  - intros (a' & E & H); congruence.
  - discriminate.
  - intros (a' & E & _); discriminate.
Qed.

Lemma map_res_ok {A B} (f : A -> res B) (g : A -> B) l :
  (forall x, In x l -> f x = Ok (g x)) -> map_res f l = Ok (map g l).
Proof.
  induction l as [|x l IH]; intros H; cbn; [reflexivity|].
  rewrite H by (left; reflexivity). cbn.
  rewrite IH by (intros; apply H; right; assumption). reflexivity.
Qed.

Lemma slice_length {A} a b (l : list A) :
  length (slice a b l) = Nat.min (b - a) (length l - a).
Proof. unfold slice. rewrite firstn_length, skipn_length. reflexivity. Qed.

Lemma slice_nth {A} a b (l : list A) k d :
  (k < b - a)%nat -> nth k (slice a b l) d = nth (a + k) l d.
Proof.
  intros H. unfold slice.
  revert l; induction a as [|a IH]; intros l.
  - cbn. rewrite Nat.sub_0_r in *. revert l k H; induction b as [|b IHb]; intros l k H; [lia|].
    destruct l; cbn; [destruct k; reflexivity|]. destruct k; [reflexivity|]. apply IHb; lia.
  - destruct l as [|x l].
    + cbn [skipn]. rewrite firstn_nil. destruct k; reflexivity.
    + cbn [skipn]. destruct b as [|b]; [lia|].
      change (S b - S a)%nat with (b - a)%nat. cbn [Nat.add nth].
      (* reuse the induction on a with b *)
      clear IH. revert l b H; induction a as [|a IHa]; intros l b H.
      * cbn. rewrite Nat.sub_0_r in *.
        revert l k H; induction b as [|b IHb]; intros l k H; [cbn in H; lia|].
        destruct l; cbn; [destruct k; reflexivity|]. destruct k; [reflexivity|]. apply IHb; cbn in *; lia.
      * destruct l as [|y l]; [cbn [skipn]; rewrite firstn_nil; destruct (S a + k)%nat, k; reflexivity|].
        destruct b as [|b]; [lia|]. cbn [skipn]. change (S b - S a)%nat with (b - a)%nat.
        cbn [Nat.add nth]. apply IHa. cbn in *; lia.
Qed.

(** Pointwise equality of lists. *)
Lemma list_ext {A} (d : A) (l1 l2 : list A) :
  length l1 = length l2 ->
  (forall i, (i < length l1)%nat -> nth i l1 d = nth i l2 d) -> l1 = l2.
Proof.
  revert l2; induction l1 as [|x l1 IH]; intros [|y l2]; cbn; intros HL H; try discriminate; auto.
  f_equal.
  - apply (H 0%nat); lia.
  - apply IH; [lia|]. intros i Hi. apply (H (S i)); lia.
Qed.
