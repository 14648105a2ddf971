(** Model of numerical integration/differentiation, peak picking
    (helper_site_response.py:375-483) and of PySeismoSoil/class_ground_motion.py.
    Two-column arrays live in a heap because a motion keeps the caller's array as
    its acceleration.  Samples are reals; NumPy float rounding, NaN and infinite
    samples are outside this model, and arrays are of float dtype. *)
From Coq Require Import Reals List Bool ZArith Lia Lra.
From Verif Require Import Base M_generic M_profile M_vs_profile.
Import ListNotations.
Open Scope R_scope.

(** A two-column array: (time, value) rows. *)
Definition signal := list (R * R).
Definition times (s : signal) : list R := map fst s.
Definition vals (s : signal) : list R := map snd s.
Definition with_vals (s : signal) (v : list R) : signal := combine (times s) v.

(** helper_site_response.py:398 [dt = t[1] - t[0]]. *)
Definition first_step (s : signal) : res R :=
  let! t1 := get (times s) 1 in
  let! t0 := get (times s) 0 in Ok (t1 - t0).

(** helper_site_response.py:375-405 [num_int]. *)
Definition num_int (s : signal) : res (signal * signal) :=
  let! dt := first_step s in
  let v := map (fun x => x * dt) (cumsum (vals s)) in
  let u := map (fun x => x * dt) (cumsum v) in
  Ok (with_vals s v, with_vals s u).

(** [np.diff] *)
Fixpoint diffs (l : list R) : list R :=
  match l with
  | [] => []
  | a :: l' => match l' with [] => [] | b :: _ => (b - a) :: diffs l' end
  end.

(** helper_site_response.py:408-432 [num_diff]; a zero time step is a NumPy
    division by zero (inf or NaN), which is outside the model.  An empty array
    makes [column_stack] fail: [diff] of it is empty but one 0 is prepended. *)
Definition num_diff (s : signal) : res signal :=
  match s with
  | [] => Err ValueError
  | _ => Ok (with_vals s (0 :: map (fun vt => fst vt / snd vt) (combine (diffs (vals s)) (diffs (times s)))))
  end.

(** helper_site_response.py:462-476: the loop of [find_f0]; the loop variable at
    exit.  [prev] is [previous_flag == 1]. *)
Fixpoint f0_scan (ampl : list R) (prev : bool) (i : nat) : nat :=
  match ampl with
  | [] => i
  | a :: rest =>
      match rest with
      | [] => (i - 1)%nat
      | b :: _ =>
          let rising := Rltb 0 (b - a) in
          if negb rising && prev then i else f0_scan rest rising (S i)
      end
  end.

(** helper_site_response.py:435-483 [find_f0]; with fewer than two rows the loop
    does not run and line 478 reads an unbound local. *)
Definition find_f0 (x : signal) : res R :=
  let ll := length x in
  if Nat.ltb ll 2 then Err UnboundLocalError
  else
    let i := f0_scan (vals x) true 0 in
    let i := if Nat.eqb i (ll - 2) then S i else i in
    get (times x) i.

(** ** class_ground_motion.py *)

(** Units of line 144-153; [U_bad] is any other string. *)
Inductive munit := U_m | U_cm | U_ms | U_cms | U_mss | U_cmss | U_gal | U_g | U_bad.
Inductive mtype := T_accel | T_veloc | T_displ | T_bad.

(** class_ground_motion.py:177-180. *)
Definition unit_factor (u : munit) (x : R) : R :=
  match u with
  | U_cm | U_cms | U_cmss | U_gal => x / 100
  | U_g => x * (981 / 100)
  | _ => x
  end.

Definition is_g (u : munit) : bool := match u with U_g | U_gal => true | _ => false end.

Definition sheap := list signal.
Definition sig_at (h : sheap) (l : nat) : signal := nth l h [].

(** class_ground_motion.py:509-512: [Ia[0] = 0; Ia[i] = Ia[i-1] + pi/(2g) a[i-1]^2 dt]. *)
Fixpoint arias_from (acc dt : R) (a : list R) : list R :=
  match a with
  | [] => []
  | x :: a' => acc :: arias_from (acc + PI / (2 * (981 / 100)) * (x * x) * dt) dt a'
  end.

(** class_ground_motion.py:516: division by the peak; 0/0 is NaN. *)
Definition normalise (ia : list R) (peak : R) : list num :=
  map (fun x => if Reqb peak 0 then (if Reqb x 0 then NaN else if Rltb 0 x then PInf else NInf)
                else Fin (x / peak)) ia.

(** class_ground_motion.py:462-473: the loop over samples. *)
Fixpoint bounds_scan (t : list R) (ia : list num) (prev : num) (lo hi : R) (t_low t_high : R) : R * R :=
  match t, ia with
  | ti :: t', x :: ia' =>
      let t_low := if nleb (Fin lo) x && nltb prev (Fin lo) then ti else t_low in
      let t_high := if nleb (Fin hi) x && nltb prev (Fin hi) then ti else t_high in
      bounds_scan t' ia' x lo hi t_low t_high
  | _, _ => (t_low, t_high)
  end.

(** class_ground_motion.py:438-475 [__arias_time_bounds]. *)
Definition arias_time_bounds (t : list R) (ia : list num) (lo hi : R) : res (R * R) :=
  if Rleb hi lo then Err ValueError
  else if negb (Nat.eqb (length t) (length ia)) then Err ValueError
  else
    let! t_high := last_res t in
    let! prev := get ia 0 in
    Ok (bounds_scan t ia prev lo hi 0 t_high).

(** class_ground_motion.py:477-530 [__calc_Arias] on the acceleration. *)
Record arias := mkarias { ia : list R; ia_norm : list num; ia_peak : R; t5_95 : R }.
Definition calc_Arias (s : signal) : res arias :=
  let! dt := first_step s in
  let i := arias_from 0 dt (vals s) in
  let! pk := last_res i in
  let nrm := normalise i pk in
  let! b := arias_time_bounds (times s) nrm (5/100) (95/100) in
  Ok (mkarias i nrm pk (snd b - fst b)).

(** [np.sqrt(np.mean(x**2))], class_ground_motion.py:428-436. *)
Definition rms (v : list R) : R := sqrt (rsum (map (fun x => x * x) v) / INR (length v)).

Definition max_abs (v : list R) : res R :=
  match map Rabs v with [] => Err ValueError | x :: r => Ok (rmax_from x r) end.

(** Attributes of a motion.  [m_accel], [m_veloc], [m_displ] are array locations. *)
Record motion := mkmotion {
  m_dt : R; m_npts : nat; m_time : list R;
  m_accel : nat; m_veloc : nat; m_displ : nat;
  m_pga : R; m_pgv : R; m_pgd : R;
  m_arias : arias;
  m_rms : R * R * R }.

Definition pga_in_g (m : motion) : R := m_pga m / (981 / 100).

(** class_ground_motion.py:182-212: from the converted array at [loc] on. *)
Definition gm_finish (h : sheap) (loc : nat) (dt : R) (ty : mtype) : sheap * res motion :=
  let d := sig_at h loc in
  let tm := linspace 0 (dt * INR (length d - 1)) (length d) in
  let fields : res (signal * signal * signal) :=
    match ty with
    | T_accel => let! vu := num_int d in Ok (d, fst vu, snd vu)
    | T_veloc => let! a := num_diff d in let! vu := num_int d in Ok (a, d, fst vu)
    | _ => let! v := num_diff d in let! a := num_diff v in Ok (a, v, d)
    end in
  match fields with
  | Err e => (h, Err e)
  | Ok (a, v, u) =>
      let n := length h in
      let '(h', la, lv, lu) :=
        match ty with
        | T_accel => (h ++ [v; u], loc, n, S n)
        | T_veloc => (h ++ [a; u], n, loc, S n)
        | _ => (h ++ [v; a], S n, n, loc)
        end in
      (h',
       let! pga := max_abs (vals a) in
       let! pgv := max_abs (vals v) in
       let! pgd := max_abs (vals u) in
       let! ar := calc_Arias a in
       let! vu := num_int a in
       Ok (mkmotion dt (length d) tm la lv lu pga pgv pgd ar
             (rms (vals a), rms (vals (fst vu)), rms (vals (snd vu)))))
  end.

(** class_ground_motion.py:155-180, after loading: argument checks, then the
    in-place unit conversion of the array at [loc]. *)
Definition gm_checked (h : sheap) (loc : nat) (dt : R) (u : munit) (ty : mtype) : sheap * res motion :=
  match u with
  | U_bad => (h, Err ValueError)
  | _ =>
    match ty with
    | T_bad => (h, Err ValueError)
    | _ =>
      if is_g u && negb (match ty with T_accel => true | _ => false end) then (h, Err ValueError)
      else
        let d := sig_at h loc in
        let h1 := set_nth loc (map (fun tv => (fst tv, unit_factor u (snd tv))) d) h in
        gm_finish h1 loc dt ty
    end
  end.

(** Constructor on a two-column array at [loc] (class_ground_motion.py:129-212 with
    helper_generic.py:203-224): an array of one row counts as one-column data
    without time step (ValueError); an empty one has no first step (IndexError). *)
Definition gm_init (h : sheap) (loc : nat) (u : munit) (ty : mtype) : sheap * res motion :=
  let d := sig_at h loc in
  if Nat.eqb (length d) 1 then (h, Err ValueError)
  else match first_step d with
       | Err e => (h, Err e)
       | Ok dt => gm_checked h loc dt u ty
       end.

(** Constructor on one-column data with a time step: a new array is stacked. *)
Definition gm_init1 (h : sheap) (v : list R) (delta : option R) (u : munit) (ty : mtype)
    : sheap * res motion :=
  match one_column (length v) v delta with
  | Err e => (h, Err e)
  | Ok (s, dt) => gm_checked (h ++ [s]) (length h) dt u ty
  end.

(** class_ground_motion.py:390-426 [_unit_convert]: a converted copy of the values. *)
Definition unit_convert (h : sheap) (m : motion) (u : munit) : res signal :=
  let s := sig_at h (m_accel m) in
  match u with
  | U_mss => Ok s
  | U_cmss | U_gal => Ok (map (fun tv => (fst tv, snd tv * 100)) s)
  | U_g => Ok (map (fun tv => (fst tv, snd tv / (981 / 100))) s)
  | _ => Err ValueError
  end.

(** class_ground_motion.py:532-562 [scale_motion]; the PGA used for a target is
    the attribute stored at construction.  A zero PGA is a NumPy division by zero. *)
Definition scale_motion (h : sheap) (m : motion) (factor : R) (target : option R) : sheap * res motion :=
  let f := match target with Some t => t / pga_in_g m | None => factor end in
  let s := sig_at h (m_accel m) in
  gm_init (h ++ [map (fun tv => (fst tv, snd tv * f)) s]) (length h) U_m T_accel.

(** Python [int()] on a real: truncation toward zero. *)
Definition py_int (x : R) : Z := if Rleb 0 x then Int_part x else (- Int_part (- x))%Z.

(** Python slice bounds: negative indices count from the end, then clamping. *)
Definition clamp_index (i : Z) (n : nat) : nat :=
  if Z.ltb i 0 then Z.to_nat (Z.of_nat n + i) else Nat.min (Z.to_nat i) n.
Definition pyslice {A} (a b : Z) (l : list A) : list A :=
  let n := length l in slice (clamp_index a n) (clamp_index b n) l.

(** class_ground_motion.py:630-690 [truncate] for [limit] and [extend] of length 2.
    The figure is not modelled. *)
Definition gm_truncate (h : sheap) (m : motion) (lim1 lim2 : R) (arias_lim : bool) (e1 e2 : R)
    : sheap * res (motion * (Z * Z)) :=
  if Rltb e1 0 || Rltb e2 0 then (h, Err ValueError)
  else if Rleb lim2 lim1 then (h, Err ValueError)
  else
    let s := sig_at h (m_accel m) in
    let tb := if arias_lim then arias_time_bounds (times s) (ia_norm (m_arias m)) lim1 lim2
              else Ok (lim1, lim2) in
    match tb with
    | Err e => (h, Err e)
    | Ok (t1, t2) =>
        let n1 := py_int ((t1 - e1) / m_dt m) in
        let n2 := py_int ((t2 + e2) / m_dt m) in
        let n1 := if Z.ltb n1 0 then 0%Z else n1 in
        let n2 := if Z.ltb (Z.of_nat (m_npts m)) n2 then Z.of_nat (m_npts m) else n2 in
        let tt_ := pyslice 0 (n2 - n1) (times s) in
        let aa := pyslice n1 n2 (vals s) in
        if negb (Nat.eqb (length tt_) (length aa)) then (h, Err ValueError)  (* column_stack *)
        else
          let '(h', r) := gm_init (h ++ [combine tt_ aa]) (length h) U_m T_accel in
          (h', let! m' := r in Ok (m', (n1, n2)))
    end.

(** class_ground_motion.py:1117-1151 [save_accel]: what is written, and the
    object's own array after the call. *)
Definition save_accel (h : sheap) (m : motion) (u : munit) : sheap * signal :=
  let s := sig_at h (m_accel m) in
  let s' := match u with
            | U_g => map (fun tv => (fst tv, snd tv / (981 / 100))) s
            | U_gal | U_cmss => map (fun tv => (fst tv, snd tv * 100)) s
            | _ => s
            end in
  (set_nth (m_accel m) s' h, s').
