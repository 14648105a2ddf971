(** Model of the parameter dictionaries (class_parameters.py:26-338), their
    serialisation (helper_hh_model.py:346-414, helper_mkz_model.py:220-303) and
    the multi-layer parameter classes (class_parameters.py:341-760).  Values are
    real numbers; the curves and their figure are in M_lawcurves. *)
From Coq Require Import Reals List Bool ZArith String Lia Lra.
From Verif Require Import Base M_generic.
Import ListNotations.
Open Scope R_scope.
Open Scope string_scope.

(** A Python dict: association list in insertion order. *)
Definition dict := list (string * R).
Definition keys (d : dict) : list string := map fst d.

Fixpoint dget (k : string) (d : dict) : option R :=
  match d with
  | [] => None
  | (k', v) :: d' => if String.eqb k k' then Some v else dget k d'
  end.

(** [d[k] = v] on a plain dict: overwrite in place, else append. *)
Fixpoint dset (k : string) (v : R) (d : dict) : dict :=
  match d with
  | [] => [(k, v)]
  | (k', v') :: d' => if String.eqb k k' then (k', v) :: d' else (k', v') :: dset k v d'
  end.

(** [d | other] and [d |= other] on plain dicts. *)
Fixpoint dmerge (d other : dict) : dict :=
  match other with [] => d | (k, v) :: other' => dmerge (dset k v d) other' end.

Definition mem (k : string) (l : list string) : bool := existsb (String.eqb k) l.

(** class_parameters.py:83 [param_dict.keys() != allowable_keys]: set equality. *)
Definition same_keys (d : dict) (allow : list string) : bool :=
  forallb (fun k => mem k allow) (keys d) && forallb (fun k => mem k (keys d)) allow.

(** class_parameters.py:96-100 [__setitem__]. *)
Definition setitem (allow : list string) (d : dict) (k : string) (v : R) : dict * res unit :=
  if mem k allow then (dset k v d, Ok tt) else (d, Err KeyError).

(** [MutableMapping.update] (Python library): one [__setitem__] per item, in
    order; an exception stops the loop and keeps what was written. *)
Fixpoint update (allow : list string) (d : dict) (items : dict) : dict * res unit :=
  match items with
  | [] => (d, Ok tt)
  | (k, v) :: items' =>
      match setitem allow d k v with
      | (d', Ok _) => update allow d' items'
      | (d', Err e) => (d', Err e)
      end
  end.

(** class_parameters.py:66-91 [Parameter.__init__]; [None] is an argument that is
    not a dict.  (The check of [allowable_keys] itself, line 78, always passes for
    the two subclasses.) *)
Definition param_init (allow : list string) (arg : option dict) : res dict :=
  match arg with
  | None => Err TypeError
  | Some d =>
      if negb (same_keys d allow) then Err KeyError
      else match update allow [] d with (d', Ok _) => Ok d' | (_, Err e) => Err e end
  end.

(** class_parameters.py:276-286 and 322. *)
Definition HH_keys : list string := ["gamma_t"; "a"; "gamma_ref"; "beta"; "s"; "Gmax"; "mu"; "Tmax"; "d"].
Definition MKZ_keys : list string := ["gamma_ref"; "s"; "beta"; "Gmax"].

(** The mutating dictionary operations of a [UserDict] subclass.  [OPop k d] is
    [pop(k, d)] ([None]: no default given); [OIor] is the in-place union [|=]. *)
Inductive dop :=
| OSet (k : string) (v : R)
| ODel (k : string)
| OPop (k : string) (default : option R)
| OPopitem
| OClear
| OUpdate (items : dict)
| OSetdefault (k : string) (v : R)
| OIor (items : dict).

(** Result of one operation; the value is what the call returns. *)
Definition dstep (allow : list string) (d : dict) (o : dop) : dict * res (option R) :=
  match o with
  | OSet k v => match setitem allow d k v with (d', Ok _) => (d', Ok None) | (d', Err e) => (d', Err e) end
  (* class_parameters.py:102-105 *)
  | ODel _ => (d, Err ValueError)
  (* MutableMapping.pop: [self[key]], then [del self[key]] *)
  | OPop k default =>
      match dget k d, default with
      | Some _, _ => (d, Err ValueError)
      | None, Some v => (d, Ok (Some v))
      | None, None => (d, Err KeyError)
      end
  (* MutableMapping.popitem: KeyError when empty, else [del self[key]] *)
  | OPopitem => match d with [] => (d, Err KeyError) | _ => (d, Err ValueError) end
  (* MutableMapping.clear: popitem until KeyError *)
  | OClear => match d with [] => (d, Ok None) | _ => (d, Err ValueError) end
  | OUpdate items => match update allow d items with (d', Ok _) => (d', Ok None) | (d', Err e) => (d', Err e) end
  (* MutableMapping.setdefault *)
  | OSetdefault k v =>
      match dget k d with
      | Some x => (d, Ok (Some x))
      | None => match setitem allow d k v with (d', Ok _) => (d', Ok (Some v)) | (d', Err e) => (d', Err e) end
      end
  (* UserDict.__ior__: [self.data |= other], which does not call __setitem__ *)
  | OIor items => (dmerge d items, Ok None)
  end.

Definition druns (allow : list string) (d : dict) (os : list dop) : dict :=
  fold_left (fun d o => fst (dstep allow d o)) os d.

(** UserDict.__or__: [self.__class__(self.data | other)]. *)
Definition dunion (allow : list string) (d other : dict) : res dict :=
  param_init allow (Some (dmerge d other)).

(** ** Serialisation *)
Definition fetch (d : dict) (k : string) : res R :=
  match dget k d with Some v => Ok v | None => Err KeyError end.

(** helper_hh_model.py:363-379. *)
Definition hh_serialize (d : dict) : res (list R) :=
  assert! Nat.eqb (List.length d) 9 else AssertionError in
  map_res (fetch d) ["gamma_t"; "a"; "gamma_ref"; "beta"; "s"; "Gmax"; "mu"; "Tmax"; "d"].

(** helper_hh_model.py:400-414 (a 1-D array). *)
Definition hh_deserialize (a : list R) : res dict :=
  assert! Nat.eqb (List.length a) 9 else AssertionError in
  Ok [("gamma_t", nth 0 a 0); ("a", nth 1 a 0); ("gamma_ref", nth 2 a 0); ("beta", nth 3 a 0);
      ("s", nth 4 a 0); ("Gmax", nth 5 a 0); ("mu", nth 6 a 0); ("Tmax", nth 7 a 0); ("d", nth 8 a 0)].

(** helper_mkz_model.py:246-255. *)
Definition mkz_serialize (d : dict) (to_files : bool) : res (list R) :=
  assert! Nat.eqb (List.length d) 4 else AssertionError in
  let! a := map_res (fetch d) ["gamma_ref"; "s"; "beta"; "Gmax"] in
  Ok (if to_files then [nth 0 a 0; 0; nth 1 a 0; nth 2 a 0] else a).

(** helper_mkz_model.py:285-303. *)
Definition mkz_deserialize (a : list R) (from_files : bool) : res dict :=
  assert! Nat.eqb (List.length a) 4 else AssertionError in
  Ok (if from_files
      then [("gamma_ref", nth 0 a 0); ("s", nth 2 a 0); ("beta", nth 3 a 0); ("Gmax", 1)]
      else [("gamma_ref", nth 0 a 0); ("s", nth 1 a 0); ("beta", nth 2 a 0); ("Gmax", nth 3 a 0)]).

(** ** Multi-layer parameter objects *)

(** A soil model: its keys, serialisation and deserialisation. *)
Record model := { mkeys : list string; mser : dict -> res (list R); mdeser : list R -> res dict }.
Definition HH : model := {| mkeys := HH_keys; mser := hh_serialize; mdeser := hh_deserialize |}.
(** class_parameters.py:733 and 745 call deserialize without [from_files]; 338
    serialises without [to_files]. *)
Definition MKZ : model :=
  {| mkeys := MKZ_keys; mser := fun d => mkz_serialize d false; mdeser := fun a => mkz_deserialize a false |}.

(** class_parameters.py:476-491 [serialize_to_2D_array] for at least one layer:
    column [j] holds layer [j].  ([np.array([]).T] of an empty list is 1-D.) *)
Definition transpose_R (w : nat) (ls : list (list R)) : list (list R) :=
  map (fun i => map (fun l => nth i l 0) ls) (seq 0 w).
Definition serialize_2D (m : model) (layers : list dict) : res (nat * list (list R)) :=
  let! arrays := map_res (mser m) layers in
  Ok (List.length layers, transpose_R (List.length (mkeys m)) arrays).

(** class_parameters.py:604-626 / 727-756: building from a 2-D array; every
    column is deserialised and validated ([element_class(param_data)], 389). *)
Definition multi_from_array (m : model) (c : nat) (rows : list (list R)) : res (list dict) :=
  let! cols_ := extract_from_param_format (PArr true (A2 c (map (map Fin) rows))) in
  let! ds := map_res (fun col => mdeser m (map (fun x => match x with Fin r => r | _ => 0 end) col)) cols_ in
  map_res (fun d => param_init (mkeys m) (Some d)) ds.

(** [np.genfromtxt] squeezes: one row or one column gives a 1-D array (a single
    number gives a 0-D array). *)
Inductive loaded := L1 | L2 (c : nat) (rows : list (list R)).
Definition genfromtxt (c : nat) (rows : list (list R)) : loaded :=
  if Nat.leb c 1 || Nat.leb (List.length rows) 1 then L1 else L2 c rows.

(** class_parameters.py:604-610: a file written by [save_txt] (493-527) holds the
    serialised matrix with every value printed through [fmt]; a 1-D array fails
    the 2-D check of [extract_from_param_format]. *)
Definition multi_from_file (m : model) (c : nat) (rows : list (list R)) : res (list dict) :=
  match genfromtxt c rows with
  | L1 => Err TypeError
  | L2 c rows => multi_from_array m c rows
  end.
Definition save_txt (m : model) (fmt : R -> R) (layers : list dict) : res (nat * list (list R)) :=
  let! cm := serialize_2D m layers in Ok (fst cm, map (map fmt) (snd cm)).
