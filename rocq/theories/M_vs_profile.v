(** Model of PySeismoSoil/class_Vs_profile.py (construction, truncation, queries,
    exports).  NumPy arrays live in a heap because the class keeps views of the
    caller's array and writes through views of its own table. *)
From Coq Require Import Reals List Bool ZArith Lia Lra.
From Verif Require Import Base M_generic M_profile.
Import ListNotations.
Open Scope R_scope.

(** A 2-D array object.  [t_int] is true for an integer dtype: a float stored in
    such an array is truncated toward zero, and in-place float arithmetic on it
    raises.  Cells are finite reals: an array with NaN or infinities is rejected
    by the format check before anything else happens (class_Vs_profile.py:117). *)
Record table : Type := mktable { t_int : bool; t_ncol : nat; t_rows : list (list R) }.

(** Heap of arrays; a location is an index. *)
Definition heap := list table.
Definition empty_table := mktable false 0 [].
Definition tbl (h : heap) (l : nat) : table := nth l h empty_table.

Fixpoint set_nth {A} (i : nat) (x : A) (l : list A) : list A :=
  match l, i with
  | [], _ => []
  | _ :: l', O => x :: l'
  | y :: l', S i' => y :: set_nth i' x l'
  end.

Definition alloc (h : heap) (t : table) : heap * nat := (h ++ [t], length h).

(** Cell [j] of a row. *)
Definition cell (j : nat) (r : list R) : R := nth j r 0.
Definition col (j : nat) (t : table) : list R := map (cell j) (t_rows t).

(** The table as seen by the validator of helper_generic.py. *)
Definition as_pyobj (t : table) : pyobj := PArr true (A2 (t_ncol t) (map (map Fin) (t_rows t))).

(** First two columns, as used by the routines of helper_site_response.py. *)
Definition layers_of (rows : list (list R)) : list layer := map (fun r => (cell 0 r, cell 1 r)) rows.

(** Units accepted by class_Vs_profile.py:119-123; [kg/m3] and [g/cm3] are
    synonyms of [kg/m^3] and [g/cm^3]; the last constructor is any other string. *)
Inductive dunit := D_1 | D_pct | D_bad.
Inductive runit := R_kg | R_g | R_bad.

(** The attributes set at class_Vs_profile.py:187-197.  [o_thk] is the location
    of the array of which [_thk] and [_vs] are column views: the caller's array,
    or the object's own table when a half space was appended (line 185). *)
Record vsobj : Type := mkobj {
  o_tbl : nat;
  o_thk : nat;
  o_vs30 : R;
  o_zmax : R;
  o_nlayer : nat }.

(** class_Vs_profile.py:129-147: the 5-column table built from 2 columns. *)
Definition build_from_2 (rows : list (list R)) (formula : nat) : list (list R) :=
  let xr := get_xi_rho (map (cell 1) rows) formula in
  let n := length rows in
  let mat := if Reqb (last (map (cell 0) rows) 0) 0
             then map INR (seq 1 (n - 1)) ++ [0] else map INR (seq 1 n) in
  map (fun i => [cell 0 (nth i rows []); cell 1 (nth i rows []);
                 nth i (fst xr) 0; nth i (snd xr) 0; nth i mat 0]) (seq 0 n).

(** class_Vs_profile.py:165-169: in-place conversion of the columns. *)
Definition convert_row (du : dunit) (ru : runit) (r : list R) : list R :=
  let r1 := match ru with R_g => set_nth 3 (cell 3 r * 1000) r | _ => r end in
  match du with D_pct => set_nth 2 (cell 2 r1 / 100) r1 | _ => r1 end.

(** class_Vs_profile.py:179-185: the appended half space. *)
Definition half_space_row (r : list R) : list R := set_nth 4 0 (set_nth 0 0 r).

(** class_Vs_profile.py:94-197 [Vs_Profile.__init__] on the array at location
    [loc] (a file name gives a fresh array, which is the same thing).  The
    printed warnings are dropped.  An empty table was rejected by the check.
    In-place arithmetic on an integer array raises a TypeError subclass. *)
Definition vs_init (h : heap) (loc : nat) (du : dunit) (ru : runit)
    (add_halfspace : bool) (formula : nat) : heap * res vsobj :=
  let t := tbl h loc in
  match check_Vs_profile_format (as_pyobj t) with
  | Err e => (h, Err e)
  | Ok _ =>
    match du, ru with
    | D_bad, _ => (h, Err ValueError)
    | _, R_bad => (h, Err ValueError)
    | _, _ =>
      let inplace := Nat.eqb (t_ncol t) 5 &&
                     (match ru with R_g => true | _ => false end
                      || match du with D_pct => true | _ => false end) in
      if inplace && t_int t then (h, Err TypeError)
      else
        let h1 := if inplace
                  then set_nth loc (mktable false 5 (map (convert_row du ru) (t_rows t))) h
                  else h in
        let '(rows, isint) :=
          if Nat.eqb (t_ncol t) 2 then (build_from_2 (t_rows t) formula, false)
          else (t_rows (tbl h1 loc), t_int t) in
        let thk_last := last (map (cell 0) (t_rows t)) 0 in
        let appended := add_halfspace && negb (Reqb thk_last 0) in
        let rows' := if appended then rows ++ [half_space_row (last rows [])] else rows in
        let '(h2, own) := alloc h1 (mktable isint 5 rows') in
        match calc_Vs30 (layers_of rows') 1 with
        | Err e => (h2, Err e)
        | Ok vs30 =>
          let thk := map (cell 0) rows' in
          (h2, Ok (mkobj own (if appended then own else loc) vs30 (rsum thk)
                     (if Reqb (last thk 0) 0 then (length rows' - 1)%nat else length rows')))
        end
    end
  end.

(** The attribute [vs_profile] of an object, and its [_thk] view. *)
Definition o_rows (h : heap) (o : vsobj) : list (list R) := t_rows (tbl h (o_tbl o)).
Definition o_thks (h : heap) (o : vsobj) : list R := map (cell 0) (t_rows (tbl h (o_thk o))).

(** class_Vs_profile.py:371-382 [get_depth_array]. *)
Definition get_depth_array (h : heap) (o : vsobj) : res (list R) := thk2dep (o_thks h o) false.

(** class_Vs_profile.py:416-426: the loop of [truncate]; [inl (j, last_thk)] when
    it breaks, [inr total_depth] when it runs to the end. *)
Fixpoint trunc_scan (thk : list R) (depth total : R) (j : nat) : (nat * R) + R :=
  match thk with
  | [] => inr total
  | t :: thk' =>
      if Rleb depth (total + t) then inl (j, depth - total)
      else trunc_scan thk' depth (total + t) (S j)
  end.

(** A float stored into a cell of an array. *)
Definition store (isint : bool) (x : R) : R :=
  if isint then (if Rleb 0 x then IZR (Int_part x) else - IZR (Int_part (- x))) else x.

(** Write cell [(j, 0)] of the table at [loc] (lines 420 and 429). *)
Definition write_thk (h : heap) (loc j : nat) (x : R) : heap :=
  let t := tbl h loc in
  set_nth loc (mktable (t_int t) (t_ncol t)
                 (set_nth j (set_nth 0 (store (t_int t) x) (nth j (t_rows t) [])) (t_rows t))) h.

(** class_Vs_profile.py:441-442: a zero material number above the new half space
    is replaced by a new one. *)
Definition fix_material (rows : list (list R)) : list (list R) :=
  let n := length rows in
  let r := nth (n - 2) rows [] in
  if Reqb (cell 4 r) 0
  then set_nth (n - 2) (set_nth 4 (rmax_from (cell 4 (nth 0 rows [])) (map (cell 4) rows) + 1) r) rows
  else rows.

(** class_Vs_profile.py:384-444 [truncate].  [None] stands for Python's None.
    [len(self._vs)] is the row count of the array behind [_thk]. *)
Definition truncate (h : heap) (o : vsobj) (depth Vs : option R) : heap * res vsobj :=
  match depth, Vs with
  | None, _ => (h, Err ValueError)
  | Some d, _ =>
    if Rleb d 0 then (h, Err ValueError)
    else match Vs with
    | None => (h, Err ValueError)
    | Some V =>
      if Rleb V 0 then (h, Err ValueError)
      else
        let '(h1, j) :=
          match trunc_scan (o_thks h o) d 0 0 with
          | inl (j, last_thk) => (write_thk h (o_tbl o) j last_thk, j)
          | inr total =>
              let j := (length (o_thks h o) - 1)%nat in
              (write_thk h (o_tbl o) j (d + cell 0 (nth j (o_rows h o) []) - total), j)
          end in
        let xr := get_xi_rho [V] 3 in
        let bedrock := [0; V; nth 0 (fst xr) 0; nth 0 (snd xr) 0; 0] in
        let rows := fix_material (firstn (S j) (o_rows h1 o) ++ [bedrock]) in
        let '(h2, l) := alloc h1 (mktable false 5 rows) in
        vs_init h2 l D_1 R_kg false 3
    end
  end.

(** class_Vs_profile.py:445-522 [query_Vs_at_depth] for an array of depths with
    [as_profile=True]: sortedness, duplicates, then a new profile. *)
Definition query_as_profile (h : heap) (o : vsobj) (depths : list R) : heap * res vsobj :=
  match query_Vs_at_depth (layers_of (o_rows h o)) depths with
  | Err e => (h, Err e)
  | Ok vs =>
    if negb (is_sorted depths) then (h, Err ValueError)
    else if has_adjacent_dup depths then (h, Err ValueError)
    else
      let has0 := existsb (fun d => Reqb d 0) depths in
      match dep2thk (if has0 then depths else 0 :: depths) true with
      | Err e => (h, Err e)
      | Ok thk =>
        let vs' := if has0 then vs else firstn 1 vs ++ vs in
        if negb (Nat.eqb (length thk) (length vs')) then (h, Err ValueError)
        else
          let '(h1, l) := alloc h (mktable false 2 (map (fun tv => [fst tv; snd tv]) (combine thk vs'))) in
          vs_init h1 l D_1 R_kg false 3
      end
  end.

(** class_Vs_profile.py:566-567: the inferred number of layers, for [thk > 0]. *)
Definition infer_n_layers (zmax thk : R) : Z := ceil (zmax / thk).

(** class_Vs_profile.py:524-592 [query_Vs_given_thk]. *)
Definition class_thk_arg (o : vsobj) (thk : thk_arg) : thk_arg :=
  match thk with
  | ThkScalar t None => ThkScalar t (Some (infer_n_layers (o_zmax o) t))
  | _ => thk
  end.

Definition class_query_given_thk (h : heap) (o : vsobj) (thk : thk_arg) (at_midpoint : bool)
    : res (list R) :=
  let! r := query_Vs_given_thk (layers_of (o_rows h o)) (class_thk_arg o thk) at_midpoint in
  Ok (fst r).

Definition class_query_given_thk_profile (h : heap) (o : vsobj) (thk : thk_arg)
    (at_midpoint add_halfspace : bool) : heap * res vsobj :=
  match query_Vs_given_thk (layers_of (o_rows h o)) (class_thk_arg o thk) at_midpoint with
  | Err e => (h, Err e)
  | Ok (vs, thks) =>
    if negb (Nat.eqb (length thks) (length vs)) then (h, Err ValueError)  (* column_stack *)
    else
      let '(h1, l) := alloc h (mktable false 2 (map (fun tv => [fst tv; snd tv]) (combine thks vs))) in
      vs_init h1 l D_1 R_kg add_halfspace 3
  end.

(** class_Vs_profile.py:642-655 [get_slowness]: columns 2.. keep the ones they
    were initialised with. *)
Definition get_slowness (rows : list (list R)) : list (list R) :=
  map (fun r => cell 0 r :: 1 / cell 1 r :: repeat 1 (length r - 2)) rows.

(** class_Vs_profile.py:657-669 [output_as_km_unit]. *)
Definition output_as_km_unit (t : table) : res (list (list R)) :=
  if t_int t then Err TypeError
  else Ok (map (fun r => set_nth 1 (cell 1 r / 1000) (set_nth 0 (cell 0 r / 1000) r)) (t_rows t)).

(** class_Vs_profile.py:676-714 [to_txt]: the argument check; [is_list] and the
    length describe [precision] (the default is a tuple of length 5). *)
Definition to_txt_check (is_list : bool) (len : nat) : res unit :=
  if negb is_list then Err TypeError
  else if negb (Nat.eqb len 5) then Err ValueError else Ok tt.
Definition to_txt_default : res unit := to_txt_check false 5.
