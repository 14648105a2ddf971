(** Model of the curve matrices and of the classes that hold them
    (class_curves.py:840-864, 924-986, 1309-1333, 1393-1455, 1509-1625).

    A curve object is represented by the columns it holds, strain (in percent) and
    value: the functions below neither modify these arrays nor return them. *)
From Coq Require Import Reals List Bool ZArith Lia Lra.
From Verif Require Import Base M_generic M_profile M_motion M_soil M_interp M_dampcal M_hhcal.
Import ListNotations.
Open Scope R_scope.

(** A curve: (strain in percent, value) samples. *)
Definition vcurve := list (R * R).

(** [np.min], [np.max] of a non-empty list. *)
Definition min_of (x : R) (l : list R) : R := fold_left Rmin l x.
Definition max_of (x : R) (l : list R) : R := fold_left Rmax l x.

(** class_curves.py:965-975 (1434-1444): the curve itself when it has the greatest
    length [m]; otherwise [np.geomspace] between its extreme strains
    ([ValueError] when one of them is zero; strains are not negative, the
    constructor of the curve checks it) and [np.interp]. *)
Definition resample (m : nat) (c : vcurve) : res vcurve :=
  if Nat.eqb (length c) m then Ok c
  else match map fst c with
       | [] => Err ValueError      (* minimum of an empty array *)
       | x :: xs =>
           let lo := min_of x xs in
           let hi := max_of x xs in
           if Reqb lo 0 || Reqb hi 0 then Err ValueError
           else let grid := geomspace lo hi m in
                let! ys := np_interp c grid in Ok (combine grid ys)
       end.

(** Which of the two properties the class holds. *)
Inductive kind := KG | KD.

(** class_curves.py:977-978 (1446-1447): four columns, the missing property filled
    with a constant. *)
Definition block (k : kind) (filler : R) (c : vcurve) : list (list R) :=
  map (fun p => match k with
                | KG => [fst p; snd p; fst p; filler]
                | KD => [fst p; filler; fst p; snd p]
                end) c.

(** class_curves.py:963-984 (1432-1453), the loop. *)
Fixpoint stack_blocks (k : kind) (filler : R) (m : nat) (acc : list (list R)) (cs : list vcurve) : res (list (list R)) :=
  match cs with
  | [] => Ok acc
  | c :: cs' => let! c' := resample m c in stack_blocks k filler m (hstack acc (block k filler c')) cs'
  end.

Definition max_length (cs : list vcurve) : nat := list_max (map (@length (R * R)) cs).

(** class_curves.py:924-986 and 1393-1455 [get_curve_matrix].  [save_to_file] and
    [full_file_name] are accepted and never used. *)
Definition curve_matrix (k : kind) (filler : R) (cs : list vcurve) : res (list (list R)) :=
  match cs with
  | [] => Err ValueError           (* maximum of an empty list *)
  | c :: cs' =>
      let m := max_length cs in
      let! c' := resample m c in stack_blocks k filler m (block k filler c') cs'
  end.

(** ** Curves from arrays *)

(** class_curves.py:78-114 with default options, then 243-270 (values at most 1)
    or 332-368 (at most 100 percent), for one two-column array. *)
Definition upper (k : kind) : R := match k with KG => 1 | KD => 100 end.
Definition to_curve (rows : list (list num)) : vcurve := map (fun r => (nval (nth 0 r NaN), nval (nth 1 r NaN))) rows.
Definition curve_of (k : kind) (o : pyobj) : res vcurve :=
  let! _ := check_two_column_format o true false in
  match o with
  | PArr _ (A2 _ rows) =>
      let c := to_curve rows in
      if existsb (fun p => Rltb (upper k) (snd p)) c then Err ValueError else Ok c
  | _ => Err TypeError
  end.

(** class_curves.py:666-686: an element of the list given to the constructor. *)
Inductive elem := EArr (o : pyobj) | ECurve (k : kind) (c : vcurve) | EElse.
Definition is_kind (a b : kind) : bool := match a, b with KG, KG | KD, KD => true | _, _ => false end.
Definition conv_elem (k : kind) (e : elem) : res vcurve :=
  match e with
  | EArr (PArr b a) => curve_of k (PArr b a)
  | ECurve k' c => if is_kind k k' then Ok c else Err TypeError
  | _ => Err TypeError
  end.

(** class_curves.py:840-864, 1309-1333: the argument is a file name (with what
    [np.genfromtxt] makes of that file), a list, or something else. *)
Inductive source := FromFile (r : res pyobj) | FromList (l : list elem) | FromElse.
Definition pick {A} (k : kind) (p : A * A) : A := match k with KG => fst p | KD => snd p end.
Definition curves_init (k : kind) (s : source) : res (list vcurve) :=
  match s with
  | FromFile r =>
      let! o := r in
      let! p := extract_from_curve_format o true in
      map_res (fun rows => curve_of k (PArr true (A2 2 rows))) (pick k p)
  | FromList l => map_res (conv_elem k) l
  | FromElse => Err TypeError
  end.

(** ** Both properties together *)

(** class_curves.py:1509-1579: the two arguments. *)
Inductive part := PCurves (k : kind) (cs : list vcurve) | PElse.
Inductive pair_arg := NoPair | NotTuple | Tuple (l : list part).
Inductive data_arg := NoData | DataArray (o : pyobj) | DataFile (r : res pyobj).

(** The object: the pair, or the matrix with its number of columns. *)
Inductive both :=
| Pair (gs ds : list vcurve)
| Matrix (numeric : bool) (ncol : nat) (rows : list (list num)).

Definition both_init (p : pair_arg) (d : data_arg) : res both :=
  match p, d with
  | NoPair, NoData => Err ValueError
  | NoPair, _ =>
      let! o := match d with
                | DataArray (PArr b a) => Ok (PArr b a)
                | DataFile r => r
                | _ => Err TypeError
                end in
      let! cr := assert_2D_numpy_array o in
      let '(c, rows) := cr in
      if negb (Nat.eqb (c mod 4) 0) then Err ValueError
      else Ok (Matrix (match o with PArr b _ => b | _ => true end) c rows)
  | _, NoData =>
      match p with
      | Tuple l =>
          if negb (Nat.eqb (length l) 2) then Err ValueError
          else match nth 0 l PElse, last l PElse with
               | PCurves KG gs, PCurves KD ds =>
                   if Nat.eqb (length gs) (length ds) then Ok (Pair gs ds) else Err ValueError
               | _, _ => Err TypeError
               end
      | _ => Err TypeError
      end
  | _, _ => Err ValueError
  end.

(** class_curves.py:1576, 1579 *)
Definition both_layers (b : both) : nat :=
  match b with Pair gs _ => length gs | Matrix _ c _ => (c / 4)%nat end.

(** class_curves.py:1581-1603 [get_MGC_MDC_objects]. *)
Definition both_objects (b : both) : res (list vcurve * list vcurve) :=
  match b with
  | Pair gs ds => Ok (gs, ds)
  | Matrix nm c rows =>
      let! p := extract_from_curve_format (PArr nm (A2 c rows)) false in
      let! gs := map_res (fun r => curve_of KG (PArr nm (A2 2 r))) (fst p) in
      let! ds := map_res (fun r => curve_of KD (PArr nm (A2 2 r))) (snd p) in
      Ok (gs, ds)
  end.

(** class_curves.py:1605-1625 [get_curve_matrix]; the stored array itself is
    returned when there is one. *)
Definition as_array (n : nat) (m : list (list R)) : pyobj := PArr true (A2 (4 * n) (map (map Fin) m)).
Definition both_matrix (b : both) : res (nat * list (list num)) :=
  match b with
  | Matrix _ c rows => Ok (c, rows)
  | Pair gs ds =>
      let! g := curve_matrix KG 1 gs in
      let! d := curve_matrix KD 1 ds in
      merge_curve_matrices (as_array (length gs) g) (as_array (length ds) d)
  end.
