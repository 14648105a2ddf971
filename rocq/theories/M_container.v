(** Model of the list-like multi-layer containers: class_curves.py:666-734
    ([Multiple_Curves]) and class_parameters.py:381-421 ([Param_Multi_Layer]). *)
From Coq Require Import Reals List Bool ZArith Lia.
From Verif Require Import Base M_motion.
Import ListNotations.

(** A subscript: an int, a slice [a:b] (no step; slices with a step are not
    modelled), or anything else. *)
Inductive idx := IInt (i : Z) | ISlice (a b : option Z) | IOther.

(** Python list index: negative indices count from the end. *)
Definition index_of (i : Z) (n : nat) : option nat :=
  if (0 <=? i)%Z && (i <? Z.of_nat n)%Z then Some (Z.to_nat i)
  else if (- Z.of_nat n <=? i)%Z && (i <? 0)%Z then Some (Z.to_nat (Z.of_nat n + i))
  else None.

(** Bounds of [l[a:b]]; an empty range sits at the lower bound. *)
Definition slice_lo (a : option Z) (n : nat) : nat := match a with None => 0%nat | Some z => clamp_index z n end.
Definition slice_hi (b : option Z) (n : nat) : nat := match b with None => n | Some z => clamp_index z n end.

Section Container.
(** Python objects that can be stored, [isinst] (is it an instance of the
    element class), [conv] (what the class constructor makes of one list element:
    class_curves.py:673-682, class_parameters.py:388-397) and [iter] (iteration,
    for slice assignment). *)
Variable V : Type.
Variable isinst : V -> bool.
Variable conv : V -> res V.
Variable iter : V -> option (list V).

(** [checked]: class_curves.py tests the type in [__setitem__] and [append];
    class_parameters.py does not and has no [append]. *)
Record container := { items : list V; n_layer : Z; checked : bool }.

Fixpoint replace_nth (i : nat) (v : V) (l : list V) : list V :=
  match l, i with
  | [], _ => []
  | _ :: l', O => v :: l'
  | x :: l', S i' => x :: replace_nth i' v l'
  end.
Fixpoint remove_nth (i : nat) (l : list V) : list V :=
  match l, i with
  | [], _ => []
  | _ :: l', O => l'
  | x :: l', S i' => x :: remove_nth i' l'
  end.

(** class_curves.py:666-686 / class_parameters.py:381-401 (constructor). *)
Definition c_init (chk : bool) (l : list V) : res container :=
  let! xs := map_res conv l in Ok {| items := xs; n_layer := Z.of_nat (length xs); checked := chk |}.

(** What an operation returns. *)
Inductive out := RNone | RItem (v : V) | RCont (c : container) | RLen (z : Z).

(** class_curves.py:694-695 / class_parameters.py:406-407. *)
Definition c_len (c : container) : Z := n_layer c.

(** class_curves.py:705-712 / class_parameters.py:412-419. *)
Definition c_get (c : container) (i : idx) : res out :=
  match i with
  | IInt z => match index_of z (length (items c)) with
              | Some k => let! v := get (items c) k in Ok (RItem v)
              | None => Err IndexError
              end
  | ISlice a b =>
      let n := length (items c) in
      let! c' := c_init (checked c) (slice (slice_lo a n) (slice_hi b n) (items c)) in Ok (RCont c')
  | IOther => Err TypeError
  end.

Definition with_items (c : container) (l : list V) : container :=
  {| items := l; n_layer := n_layer c; checked := checked c |}.

(** class_curves.py:697-703 / class_parameters.py:409-410. *)
Definition c_set (c : container) (i : idx) (v : V) : container * res out :=
  if checked c && negb (isinst v) then (c, Err TypeError)
  else
    let n := length (items c) in
    match i with
    | IInt z => match index_of z n with
                | Some k => (with_items c (replace_nth k v (items c)), Ok RNone)
                | None => (c, Err IndexError)
                end
    | ISlice a b =>
        match iter v with
        | None => (c, Err TypeError)
        | Some new =>
            let lo := slice_lo a n in let hi := Nat.max lo (slice_hi b n) in
            (with_items c (firstn lo (items c) ++ new ++ skipn hi (items c)), Ok RNone)
        end
    | IOther => (c, Err TypeError)
    end.

(** class_curves.py:714-716 / class_parameters.py:421-423: [n_layer -= 1] whatever
    was deleted. *)
Definition c_del (c : container) (i : idx) : container * res out :=
  let n := length (items c) in
  match i with
  | IInt z => match index_of z n with
              | Some k => ({| items := remove_nth k (items c); n_layer := n_layer c - 1; checked := checked c |}, Ok RNone)
              | None => (c, Err IndexError)
              end
  | ISlice a b =>
      let lo := slice_lo a n in let hi := Nat.max lo (slice_hi b n) in
      ({| items := firstn lo (items c) ++ skipn hi (items c); n_layer := n_layer c - 1; checked := checked c |}, Ok RNone)
  | IOther => (c, Err TypeError)
  end.

(** class_curves.py:718-726; [Param_Multi_Layer] has no [append]. *)
Definition c_append (c : container) (v : V) : container * res out :=
  if negb (checked c) then (c, Err AttributeError)
  else if negb (isinst v) then (c, Err TypeError)
  else ({| items := items c ++ [v]; n_layer := n_layer c + 1; checked := checked c |}, Ok RNone).

Inductive cop := CGet (i : idx) | CSet (i : idx) (v : V) | CDel (i : idx) | CAppend (v : V) | CLen.
Definition cstep (c : container) (o : cop) : container * res out :=
  match o with
  | CGet i => (c, c_get c i)
  | CSet i v => c_set c i v
  | CDel i => c_del c i
  | CAppend v => c_append c v
  | CLen => (c, Ok (RLen (c_len c)))
  end.
Definition cruns (c : container) (os : list cop) : container := fold_left (fun c o => fst (cstep c o)) os c.
End Container.
