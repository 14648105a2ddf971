(** Model of PySeismoSoil/helper_generic.py. *)
From Coq Require Import Reals List Bool ZArith Lia Lra.
From Verif Require Import Base.
Import ListNotations.
Open Scope R_scope.

(** ** Python objects seen by the validators.
    Models the argument space of helper_generic.py:227-548.  An array is kept
    with its number of dimensions; a 2-D array carries its column count so that
    shapes such as (0, 5) exist.  [numeric] is
    [np.issubdtype(array.dtype, np.number)] (helper_generic.py:539); when it is
    false the cells are meaningless.  Complex dtypes are not modelled. *)
Inductive arr : Type :=
| A0 (x : num)
| A1 (l : list num)
| A2 (ncol : nat) (rows : list (list num))
| AN (ndim shape1 : nat) (flat : list num). (* three dimensions or more *)

Inductive pyobj : Type :=
| PNum (x : num)               (* float, int or np.number *)
| PArr (numeric : bool) (a : arr)
| POther.                      (* anything else: str, list, None, ... *)

(** All the cells of an array, in order. *)
Definition cells (a : arr) : list num :=
  match a with
  | A0 x => [x]
  | A1 l => l
  | A2 _ rows => concat rows
  | AN _ _ flat => flat
  end.

(** Well-formed 2-D arrays: every row has [ncol] cells (a NumPy invariant). *)
Definition arr_wf (a : arr) : Prop :=
  match a with
  | A2 c rows => Forall (fun r => length r = c) rows
  | AN d _ _ => (3 <= d)%nat
  | _ => True
  end.

(** [data[:, j]] for an in-range column; helper_generic.py:455-456, 469-471. *)
Definition column (j : nat) (rows : list (list num)) : list num :=
  map (fun r => nth j r NaN) rows.

(** helper_generic.py:227-245 [assert_1D_numpy_array]. *)
Definition assert_1D_numpy_array (o : pyobj) : res (list num) :=
  match o with
  | PArr _ (A1 l) => Ok l
  | _ => Err TypeError
  end.

(** helper_generic.py:248-275 [assert_array_length] (a negative or None
    [length] is not modelled). *)
Definition assert_array_length (o : pyobj) (n : nat) : res (list num) :=
  let! l := assert_1D_numpy_array o in
  if Nat.eqb (length l) n then Ok l else Err ValueError.

(** helper_generic.py:278-309 [extend_scalar]; [scalar * np.ones(length)]. *)
Definition extend_scalar (o : pyobj) (n : nat) : res (list num) :=
  match o with
  | PNum x => Ok (repeat x n)
  | _ => Err TypeError
  end.

(** helper_generic.py:312-343 [check_length_or_extend_to_array]. *)
Definition check_length_or_extend_to_array (o : pyobj) (n : nat) : res (list num) :=
  match o with
  | PNum _ => extend_scalar o n
  | _ => assert_array_length o n
  end.

(** helper_generic.py:346-364 [assert_2D_numpy_array]. *)
Definition assert_2D_numpy_array (o : pyobj) : res (nat * list (list num)) :=
  match o with
  | PArr _ (A2 c rows) => Ok (c, rows)
  | _ => Err TypeError
  end.

(** helper_generic.py:522-548 [check_numbers_valid]; the assertion of line 537
    is the [Err AssertionError] branch. *)
Definition check_numbers_valid (o : pyobj) : res Z :=
  match o with
  | PArr numeric a =>
      if negb numeric then Ok (-1)%Z
      else if negb (forallb nfinite (cells a)) then Ok (-2)%Z
      else if existsb (fun x => nltb x (Fin 0)) (cells a) then Ok (-3)%Z
      else Ok 0%Z
  | _ => Err AssertionError
  end.

(** helper_generic.py:494-519 [is_int] on a float64 cell: [number.is_integer()]
    ([None] for a non-integer is falsy; NaN and infinities are not integers). *)
Definition is_int (x : num) : bool :=
  match x with
  | Fin r => if Req_EM_T (IZR (Int_part r)) r then true else false
  | _ => false
  end.

(** helper_generic.py:367-419 [check_two_column_format]. *)
Definition check_two_column_format (o : pyobj)
    (ensure_non_negative at_least_two_columns : bool) : res unit :=
  match o with
  | PArr _ a =>
      match a with
      | A2 c rows =>
          if negb at_least_two_columns && negb (Nat.eqb c 2) then Err TypeError
          else if at_least_two_columns && Nat.ltb c 2 then Err TypeError
          else
            let! st := check_numbers_valid o in
            if Z.eqb st (-1) then Err ValueError
            else if Z.eqb st (-2) then Err ValueError
            else if ensure_non_negative && Z.eqb st (-3) then Err ValueError
            else Ok tt
      | _ => Err TypeError
      end
  | _ => Err TypeError
  end.

(** helper_generic.py:422-491 [check_Vs_profile_format].  [thk[-1]] on an empty
    array (line 462) is an IndexError; [removelast] is [ [:-1] ]. *)
Definition check_Vs_profile_format (o : pyobj) : res unit :=
  match o with
  | PArr _ a =>
      let! st := check_numbers_valid o in
      if Z.eqb st (-1) then Err ValueError
      else if Z.eqb st (-2) then Err ValueError
      else
        match a with
        | A2 c rows =>
            if negb (Nat.eqb c 2 || Nat.eqb c 5) then Err ValueError
            else
              let thk := column 0 rows in
              let Vs := column 1 rows in
              if existsb (fun x => nleb x (Fin 0)) (removelast thk) then Err ValueError
              else
                let! thk_last := last_res thk in
                if nltb thk_last (Fin 0) then Err ValueError
                else if existsb (fun x => nleb x (Fin 0)) Vs then Err ValueError
                else if Nat.eqb c 5 then
                  let xi := column 2 rows in
                  let rho := column 3 rows in
                  let mat := column 4 rows in
                  if existsb (fun x => nleb x (Fin 0)) xi
                     || existsb (fun x => nleb x (Fin 0)) rho then Err ValueError
                  else if negb (forallb is_int mat) then Err ValueError
                  else if existsb (fun x => nleb x (Fin 0)) (removelast mat) then Err ValueError
                  else
                    let! mat_last := last_res mat in
                    if nltb mat_last (Fin 0) then Err ValueError else Ok tt
                else Ok tt
        | _ => Err ValueError
        end
  | _ => Err TypeError
  end.

(** ** helper_generic.py:47-87 [find_closest_index]
    [np.argmin] returns the first index of the smallest value.  The array and
    the value are finite reals (NaN is not modelled); the type checks of lines
    75-77 are assumed to have passed. *)
Fixpoint argmin_from (best : R) (ibest i : nat) (l : list R) : nat :=
  match l with
  | [] => ibest
  | x :: l' =>
      if Rltb x best then argmin_from x i (S i) l' else argmin_from best ibest (S i) l'
  end.

Definition argmin (l : list R) : nat :=
  match l with [] => 0%nat | x :: l' => argmin_from x 0 1 l' end.

Definition find_closest_index (array : list R) (value : R) : option nat * option R :=
  match array with
  | [] => (None, None)
  | _ =>
      let deviation := map (fun x => Rabs (x - value)) array in
      let index := argmin deviation in
      (Some index, nth_error array index)
  end.

(** ** helper_generic.py:152-224 [read_two_column_stuff]
    The already loaded array (reading text files is external): 1-D data, or 2-D
    data with [c] columns.  [np.linspace(delta, n*delta, num=n)] is
    [delta + i*(n*delta-delta)/(n-1)]. *)
Inductive data2 : Type :=
| D1 (l : list R)
| D2 (c : nat) (rows : list (list R))
| D3 (shape1 : nat).          (* three dimensions or more *)

Definition linspace (a b : R) (n : nat) : list R :=
  map (fun i => if Nat.eqb n 1 then a else a + INR i * ((b - a) / INR (n - 1))) (seq 0 n).

Definition one_column (n : nat) (vals : list R) (delta : option R) : res (list (R * R) * R) :=
  match delta with
  | None => Err ValueError
  | Some d =>
      let col1 := linspace d (INR n * d) n in
      let! c1 := get col1 1 in
      let! c0 := get col1 0 in
      (* 0/0 is NaN in NumPy and the comparison with NaN is false *)
      if Reqb d 0 then Err AssertionError
      else if Rleb (Rabs (c1 - c0 - d) / d) (/ 10 ^ 8)
           then Ok (combine col1 vals, d) else Err AssertionError
  end.

Definition read_two_column_stuff (data : data2) (delta : option R)
    : res (list (R * R) * R) :=
  match data with
  | D1 l => one_column (length l) l delta
  | D2 c rows =>
      if Nat.eqb (Nat.min (length rows) c) 1 then
        (* min(shape) == 1: either one column or one row; len(data_) is the row count *)
        one_column (length rows) (map (fun r => nth 0 r 0) rows) delta
      else if Nat.eqb c 2 then
        let col1 := map (fun r => nth 0 r 0) rows in
        let! c1 := get col1 1 in
        let! c0 := get col1 0 in
        Ok (map (fun r => (nth 0 r 0, nth 1 r 0)) rows, c1 - c0)
      else Err TypeError
  | D3 _ => Err TypeError
  end.

(** ** Curve and parameter matrices *)

(** Column slice [m[:, a:b]]. *)
Definition cols {A} (a b : nat) (rows : list (list A)) : list (list A) := map (slice a b) rows.

(** [np.column_stack] of two matrices with the same number of rows. *)
Fixpoint hstack {A} (m1 m2 : list (list A)) : list (list A) :=
  match m1, m2 with
  | r1 :: m1', r2 :: m2' => (r1 ++ r2) :: hstack m1' m2'
  | _, _ => []
  end.

(** helper_generic.py:687-705, the loop body over layers [j .. j+n-1]. *)
Fixpoint extract_loop (numeric ensure_non_negative : bool) (rows : list (list num)) (j n : nat)
    : res (list (list (list num)) * list (list (list num))) :=
  match n with
  | O => Ok ([], [])
  | S n' =>
      let GGmax := cols (j * 4 + 0) (j * 4 + 2) rows in
      let damping := cols (j * 4 + 2) (j * 4 + 4) rows in
      let! _ := check_two_column_format (PArr numeric (A2 2 GGmax)) ensure_non_negative false in
      let! _ := check_two_column_format (PArr numeric (A2 2 damping)) ensure_non_negative false in
      let! gd := extract_loop numeric ensure_non_negative rows (S j) n' in
      Ok (GGmax :: fst gd, damping :: snd gd)
  end.

(** helper_generic.py:629-705 [extract_from_curve_format]. *)
Definition extract_from_curve_format (o : pyobj) (ensure_non_negative : bool)
    : res (list (list (list num)) * list (list (list num))) :=
  match o with
  | PArr numeric (A2 c rows) =>
      if negb (Nat.eqb (c mod 4) 0) then Err ValueError
      else extract_loop numeric ensure_non_negative rows 0 (c / 4)
  | _ => Err TypeError
  end.

(** helper_generic.py:708-750 [extract_from_param_format]: one vector per column. *)
Definition extract_from_param_format (o : pyobj) : res (list (list num)) :=
  match o with
  | PArr _ (A2 c rows) => Ok (map (fun j => column j rows) (seq 0 c))
  | _ => Err TypeError
  end.

(** helper_generic.py:819-830, the column stacking loop for layers [k .. k+n-1]. *)
Fixpoint merge_loop (G X merged : list (list num)) (k n : nat) : list (list num) :=
  match n with
  | O => merged
  | S n' =>
      merge_loop G X
        (hstack (hstack merged (cols (k * 4) (k * 4 + 2) G)) (cols (k * 4 + 2) (k * 4 + 4) X))
        (S k) n'
  end.

(** helper_generic.py:753-830 [merge_curve_matrices]. *)
Definition merge_curve_matrices (g x : pyobj) : res (nat * list (list num)) :=
  let! cg := assert_2D_numpy_array g in
  let! cx := assert_2D_numpy_array x in
  let '(gc, G) := cg in
  let '(xc, X) := cx in
  if negb (Nat.eqb (gc mod 4) 0) then Err ValueError
  else if negb (Nat.eqb (xc mod 4) 0) then Err ValueError
  else if negb (Nat.eqb gc xc) then Err ValueError
  else if negb (Nat.eqb (length G) (length X)) then Err ValueError
  else
    let n_layer := (gc / 4)%nat in
    let merged := hstack (cols 0 2 G) (cols 2 4 X) in
    Ok ((4 * n_layer)%nat, merge_loop G X merged 1 (n_layer - 1)).

(** NumPy subtraction of two one-dimensional arrays, with its broadcasting of
    one-element arrays (line 625). *)
Definition np_sub (a b : list R) : res (list R) :=
  if Nat.eqb (length a) (length b) then Ok (map (fun p => fst p - snd p) (combine a b))
  else match a, b with
       | [x], _ => Ok (map (fun y => x - y) b)
       | _, [y] => Ok (map (fun x => x - y) a)
       | _, _ => Err ValueError
       end.

(** helper_generic.py:607-626 [mean_absolute_error] (the docstring says squared);
    the mean of an empty array is NaN. *)
Definition mean_absolute_error (y_true y_pred : list R) : res num :=
  let! e := np_sub y_true y_pred in
  Ok match e with [] => NaN | _ => Fin (rsum (map Rabs e) / INR (length e)) end.
