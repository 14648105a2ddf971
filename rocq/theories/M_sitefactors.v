(** Model of PySeismoSoil/class_site_factors.py.

    The csv files (NumPy's genfromtxt) and scipy's [griddata] are arguments of the
    model.  Inputs may be NaN or infinite; table entries are reals.  Plots are not
    modelled. *)
From Coq Require Import Reals List Bool ZArith String DecimalString Lia Lra.
From Verif Require Import Base M_generic.
Import ListNotations.
Open Scope string_scope.
Open Scope list_scope.
Open Scope R_scope.

(** class_site_factors.py:59-90, the class attributes. *)
Definition Vs30_array : list Z := [175; 200; 250; 300; 350; 400; 450; 500; 550; 600; 650; 700; 750; 800; 850; 900; 950]%Z.
Definition z1_array : list Z := [8; 16; 24; 36; 75; 150; 300; 450; 600; 900]%Z.
Definition PGA_array : list R := [1/100; 5/100; 1/10; 2/10; 3/10; 4/10; 5/10; 75/100; 1; 125/100; 15/10].

(** A Python argument: a number, or something else (a string, a list, None). *)
Inductive parg := PNum (x : num) | POther.

Inductive status := Vs30_out | z1_out | PGA_out | Bad_combination.
Definition status_eqb (a b : status) : bool :=
  match a, b with Vs30_out, Vs30_out | z1_out, z1_out | PGA_out, PGA_out | Bad_combination, Bad_combination => true | _, _ => false end.
Definition has (s : status) (l : list status) : bool := existsb (status_eqb s) l.

(** Lines 717-735. *)
Definition bad_combination (v z : num) : bool :=
  if nltb (Fin 400) v && nltb (Fin 750) z then true
  else if nltb (Fin 450) v && nltb (Fin 600) z then true
  else if nltb (Fin 550) v && nltb (Fin 450) z then true
  else if nltb (Fin 600) v && nltb (Fin 300) z then true
  else if nltb (Fin 650) v && nltb (Fin 150) z then true
  else if nltb (Fin 750) v && nltb (Fin 75) z then true
  else if nltb (Fin 800) v && nltb (Fin 36) z then true
  else if nltb (Fin 850) v && nltb (Fin 16) z then true
  else false.

(** class_site_factors.py:683-737 [_range_check] after its type checks. *)
Definition range_check (v z p : num) : list status :=
  (if nltb v (Fin 175) || nltb (Fin 950) v then [Vs30_out] else []) ++
  (if nltb z (Fin 8) || nltb (Fin 900) z then [z1_out] else []) ++
  (if nltb p (Fin (1/100)) || nltb (Fin (15/10)) p then [PGA_out] else []) ++
  (if bad_combination v z then [Bad_combination] else []).

Record site := mksite { s_Vs30 : num; s_z1 : num; s_PGA : num }.

(** class_site_factors.py:98-143 [__init__] (the directory paths are constants). *)
Definition site_new (v z p : parg) (lenient : bool) : res site :=
  match v, z, p with
  | PNum v, PNum z, PNum p =>
      let st := range_check v z p in
      if has Vs30_out st && negb lenient then Err ValueError else
      let v' := if has Vs30_out st then (if nltb v (Fin 175) then Fin 175 else Fin 950) else v in
      if has z1_out st && negb lenient then Err ValueError else
      let z' := if has z1_out st then (if nltb z (Fin 8) then Fin 8 else Fin 900) else z in
      if has PGA_out st && negb lenient then Err ValueError else
      let p' := if has PGA_out st then (if nltb p (Fin (1/100)) then Fin (1/100) else Fin (15/10)) else p in
      if has Bad_combination st then Err ValueError else Ok (mksite v' z' p')
  | _, _, _ => Err TypeError
  end.

(** [np.searchsorted(array, value, side='left')]; NaN sorts after every number. *)
Fixpoint searchsorted_left (a : list R) (x : num) : nat :=
  match a with
  | [] => 0
  | y :: a' => if nltb (Fin y) x || (match x with NaN => true | _ => false end) then S (searchsorted_left a' x) else 0
  end.

(** [x == y] for a number and a finite number. *)
Definition neqb (x : num) (y : R) : bool := match x with Fin r => Reqb r y | _ => false end.

(** class_site_factors.py:475-504 [_search_sorted]. *)
Definition search_sorted (x : num) (a : list R) : res (nat * nat) :=
  let! lo := get a 0 in
  let! hi := last_res a in
  if nltb x (Fin lo) || nltb (Fin hi) x then Err ValueError
  else if neqb x lo then Ok (0, 1)%nat
  else if neqb x hi then Ok (List.length a - 2, List.length a - 1)%nat
  else let i := searchsorted_left a x in Ok (i - 1, i)%nat.

(** class_site_factors.py:433-473 [_locate_grids] and [_find_neighbors]; line 446
    [itertools.product]: the last index varies fastest. *)
Definition pair_list (p : nat * nat) : list nat := [fst p; snd p].
Definition locate_grids (s : site) : res (list (nat * nat * nat)) :=
  let! v := search_sorted (s_Vs30 s) (map IZR Vs30_array) in
  let! z := search_sorted (s_z1 s) (map IZR z1_array) in
  let! p := search_sorted (s_PGA s) PGA_array in
  Ok (flat_map (fun i => flat_map (fun j => map (fun k => (i, j, k)) (pair_list p)) (pair_list z)) (pair_list v)).

(** ** Data files *)
Inductive method := nl_hh | eq_hh | eq_kz | bad_method.
Definition method_name (m : method) : string := match m with nl_hh => "nl_hh" | eq_hh => "eq_hh" | eq_kz => "eq_kz" | bad_method => "" end.
Inductive what := Amplif | Phase.

(** ['%d' % n] and ['%03d' % n] for n >= 0. *)
Definition dec (z : Z) : string := NilZero.string_of_int (Z.to_int z).
Definition dec3 (z : Z) : string :=
  let s := dec z in
  match String.length s with 1%nat => "00" ++ s | 2%nat => "0" ++ s | _ => s end%string.

(** class_site_factors.py:415-426: the table and the axis file. *)
Definition y_filename (w : what) (fourier : bool) (m : method) (v z : Z) : string :=
  (dec v ++ "_" ++ dec3 z ++
   match w with
   | Amplif => if fourier then "_af_fs_" ++ method_name m ++ "_avg.csv" else "_af_rs_" ++ method_name m ++ "_avg.csv"
   | Phase => "_phase_shift_" ++ method_name m ++ "_avg.csv"
   end)%string.
Definition x_filename (w : what) (fourier : bool) (v z : Z) : string :=
  (dec v ++ "_" ++ dec3 z ++
   match w with Amplif => if fourier then "_freq.csv" else "_period.csv" | Phase => "_freq.csv" end)%string.

Section Factors.
(** [np.genfromtxt] of the files in the data directory of each kind: a missing file
    is [None]. *)
Variable table : what -> string -> option (list (list R)).
Variable axis : what -> string -> option (list R).
(** [scipy.interpolate.griddata(points, values, point, method='linear')]. *)
Variable griddata : list (R * R * R) -> list R -> R * R * R -> num.

Definition of_option {A} (e : exn) (x : option A) : res A := match x with Some a => Ok a | None => Err e end.

(** class_site_factors.py:351-431 [_query] for grid values; line 428: the row of
    the PGA index. *)
Definition query (w : what) (v z : Z) (k : nat) (fourier : bool) (m : method) : res (list R * list R) :=
  match m with bad_method => Err ValueError | _ =>
    let! y := of_option FileNotFoundError (table w (y_filename w fourier m v z)) in
    let! x := of_option FileNotFoundError (axis w (x_filename w fourier v z)) in
    let! row := get y k in
    Ok (x, row)
  end.

(** Lines 308-328: the loop over the eight neighbours: points, rows, and the axis
    of the last one. *)
Fixpoint query_all (w : what) (fourier : bool) (m : method) (c : list (nat * nat * nat)) : res (list (R * R * R) * list (list R) * list R) :=
  match c with
  | [] => Ok ([], [], [])
  | (i, j, k) :: c' =>
      let! v := get Vs30_array i in
      let! z := get z1_array j in
      let! p := get PGA_array k in
      let! xy := query w v z k fourier m in
      let! r := query_all w fourier m c' in
      let '(pts, ys, x) := r in
      Ok ((IZR v, IZR z, p) :: pts, snd xy :: ys, match c' with [] => fst xy | _ => x end)
  end.

(** class_site_factors.py:506-565 [_interpolate]: column by column; rows of
    different lengths do not form an array. *)
Definition same_length (ys : list (list R)) : bool :=
  match ys with [] => true | y :: r => forallb (fun y' => Nat.eqb (List.length y') (List.length y)) r end.
Definition column (ys : list (list R)) (i : nat) : list R := map (fun y => nth i y 0) ys.
Definition interpolate8 (pts : list (R * R * R)) (ys : list (list R)) (q : R * R * R) : res (list num) :=
  if same_length ys then Ok (map (fun i => griddata pts (column ys i) q) (seq 0 (List.length (hd [] ys)))) else Err ValueError.

(** class_site_factors.py:265-349 [_get_results]; Fourier results are cut after 140
    values (line 333). *)
Definition fin_of (x : num) : res R := match x with Fin r => Ok r | _ => Err ValueError end.
Definition get_results (w : what) (s : site) (fourier : bool) (m : method) : res (list R * list num) :=
  let! c := locate_grids s in
  let! r := query_all w fourier m c in
  let '(pts, ys, x) := r in
  let! v := fin_of (s_Vs30 s) in
  let! z := fin_of (s_z1 s) in
  let! p := fin_of (s_PGA s) in
  let! y := interpolate8 pts ys (v, z, p) in
  Ok (if fourier then (firstn 140 x, firstn 140 y) else (x, y)).

(** class_site_factors.py:145-196 [get_amplification]; the table given to
    Frequency_Spectrum, (frequency, factor) rows. *)
Definition get_amplification (s : site) (m : method) (fourier : bool) : res (list (R * num)) :=
  match m with
  | nl_hh | eq_hh =>
      let! r := get_results Amplif s fourier m in
      let '(x, y) := r in
      if Nat.eqb (List.length x) (List.length y)
      then Ok (if fourier then combine x y else rev (combine (map (fun t => 1 / t) x) y))
      else Err ValueError
  | _ => Err ValueError
  end.

(** class_site_factors.py:198-232 [get_phase_shift]. *)
Definition get_phase_shift (s : site) (m : method) : res (list (R * num)) :=
  match m with
  | eq_hh =>
      let! r := get_results Phase s true m in
      let '(x, y) := r in
      if Nat.eqb (List.length x) (List.length y) then Ok (combine x y) else Err ValueError
  | _ => Err ValueError
  end.

(** class_site_factors.py:234-263 [get_both_amplf_and_phase]. *)
Definition get_both (s : site) (m : method) : res (list (R * num) * list (R * num)) :=
  let! a := get_amplification s m true in
  let! p := get_phase_shift s eq_hh in
  Ok (a, p).
End Factors.
