(** Model of PySeismoSoil/helper_gof_scores.py and class_gof_scores.py.

    scipy.special.erf, the filters and baseline corrections (scipy, pywt), the
    response spectrum and the smoothed Fourier spectrum are arguments of the model.
    Arithmetic is over the reals; NaN (0/0 for a zero record) is explicit. *)
From Coq Require Import Reals List Bool ZArith Lia Lra.
From Verif Require Import Base M_generic M_motion.
Import ListNotations.
Open Scope R_scope.

(** helper_gof_scores.py:43-44: [np.finfo(np.float64).eps] and [eps2]. *)
Definition eps64 : R := / 2 ^ 52.
Definition eps2 : R := / 10 ^ 12.

Section Gof.
(** [scipy.special.erf] *)
Variable erf : R -> R.

(** Lines 48-51 and 56-58: relative difference of floored values. *)
Definition rela_diff (m s : R) : R := if Rltb m eps2 then s - m else (s - m) / m.

(** helper_gof_scores.py:44-51, 58: [S_] of two floats. *)
Definition S_float (m s : R) : R := erf (rela_diff (Rmax m eps64) (Rmax s eps64)) * 10.

(** Lines 53-54: [x[x < eps] = eps], element by element; NaN compares false. *)
Definition floor_eps (x : num) : num := if nltb x (Fin eps64) then Fin eps64 else x.
(** Lines 56-58 for one element.  Infinite elements are not modelled (the callers
    produce only finite numbers and NaN). *)
Definition S_el (m s : num) : num :=
  match m, s with Fin m, Fin s => Fin (erf (rela_diff m s) * 10) | _, _ => NaN end.
(** Lines 53-58: [S_] of two arrays: the caller's arrays afterwards, and the
    scores.  Broadcasting of one-element arrays is not modelled. *)
Definition S_array (m s : list num) : list num * list num * res (list num) :=
  let m' := map floor_eps m in
  let s' := map floor_eps s in
  (m', s', if Nat.eqb (length m) (length s) then Ok (map (fun p => S_el (fst p) (snd p)) (combine m' s')) else Err ValueError).

(** The type dispatch of line 45: a Python int as first argument takes the array
    branch and is not subscriptable. *)
Inductive sarg := SFloat (r : R) | SInt (z : Z) | SArr (l : list num).
Inductive sval := VFloat (r : R) | VArr (l : list num).
Definition S_ (m s : sarg) : res sval :=
  match m, s with
  | SFloat m, SFloat s => Ok (VFloat (S_float m s))
  | SFloat m, SInt s => Ok (VFloat (S_float m (IZR s)))
  | SFloat m, SArr s => Err ValueError
  | SInt _, _ => Err TypeError
  | SArr m, SArr s => let! l := snd (S_array m s) in Ok (VArr l)
  | SArr _, _ => Err TypeError
  end.

(** [np.mean]: NaN if any element is, or for an empty array. *)
Fixpoint nsum (l : list num) : num :=
  match l with
  | [] => Fin 0
  | Fin x :: l' => match nsum l' with Fin y => Fin (x + y) | _ => NaN end
  | _ :: _ => NaN
  end.
Definition nmean (l : list num) : num :=
  match l with [] => NaN | _ => match nsum l with Fin y => Fin (y / INR (length l)) | _ => NaN end end.

(** [sp.baseline], [sp.highpass], [sp.bandpass] (order 4), [baseline_wavelet]. *)
Variable bl : signal -> res signal.
Variable hp : R -> signal -> res signal.
Variable bp : R -> R -> signal -> res signal.
Variable wav : signal -> res signal.

(** Line 116 [x[q - 1 : -q, :]] with q = 15. *)
Definition trim (s : signal) : signal := pyslice 14 (-15) s.
Definition opt_bl (baseline : bool) (s : signal) : res signal := if baseline then bl s else Ok s.
Definition filt (fmin : R) (fmax : option R) (s : signal) : res signal :=
  match fmax with None => hp fmin s | Some f => bp fmin f s end.

(** helper_gof_scores.py:253-297 [calc_AriasIntensity]: intensities and peak. *)
Definition calc_AriasIntensity (s : signal) : res (list R * R) :=
  let! dt := first_step s in
  let i := arias_from 0 dt (vals s) in
  let! pk := last_res i in Ok (i, pk).

(** helper_gof_scores.py:62-250 [d_1234] without the figures.  For records of
    different lengths the interpolation of lines 152-178 is called with time and
    intensity swapped and its pair of results is used as one array; the shapes
    (1, n) and (n-1,) of lines 181-182 then never match: ValueError. *)
Definition d_1234 (m s : signal) (fmin : R) (fmax : option R) (baseline : bool) : res (list num) :=
  let! am0 := opt_bl baseline (trim m) in
  let! as0 := opt_bl baseline (trim s) in
  let! am := filt fmin fmax am0 in
  let! as_ := filt fmin fmax as0 in
  let! Ia_m := calc_AriasIntensity am in
  let! Ia_s := calc_AriasIntensity as_ in
  let! vm := num_int am in
  let! vs := num_int as_ in
  let! Ie_m := calc_AriasIntensity (fst vm) in
  let! Ie_s := calc_AriasIntensity (fst vs) in
  let N_Ia_m := normalise (fst Ia_m) (snd Ia_m) in
  let N_Ia_s := normalise (fst Ia_s) (snd Ia_s) in
  let N_Ie_m := normalise (fst Ie_m) (snd Ie_m) in
  let N_Ie_s := normalise (fst Ie_s) (snd Ie_s) in
  assert! Nat.eqb (length N_Ia_m) (length N_Ia_s) else ValueError in
  let! s1 := snd (S_array (tl N_Ia_m) (tl N_Ia_s)) in
  let! s2 := snd (S_array (tl N_Ie_m) (tl N_Ie_s)) in
  Ok [nmean s1; nmean s2; Fin (S_float (snd Ia_m) (snd Ia_s)); Fin (S_float (snd Ie_m) (snd Ie_s))].

(** helper_gof_scores.py:358-371, 379-381, 391-393 and 398-404 for one record of
    [d_567]: the root mean squares of acceleration, velocity and displacement.  The filters
    are only applied when [baseline] is true. *)
Definition rms_of (baseline : bool) (fmin : R) (fmax : option R) (x : signal) : res (R * R * R) :=
  let! a0 := if baseline then filt fmin fmax (trim x) else Ok (trim x) in
  let! _ := max_abs (vals a0) in
  let! a1 := opt_bl baseline a0 in
  let! vu := num_int a1 in
  let! u := if baseline then wav (snd vu) else Ok (snd vu) in
  Ok (rms (vals a0), rms (vals (fst vu)), rms (vals u)).

(** helper_gof_scores.py:300-487 [d_567]. *)
Definition d_567 (m s : signal) (fmin : R) (fmax : option R) (baseline : bool) : res (list num) :=
  let! rm := rms_of baseline fmin fmax m in
  let! rs := rms_of baseline fmin fmax s in
  Ok [Fin (S_float (fst (fst rm)) (fst (fst rs))); Fin (S_float (snd (fst rm)) (snd (fst rs))); Fin (S_float (snd rm) (snd rs))].

(** [sr.response_spectra(x, T_min, T_max, n_pts=100)]: periods and SA;
    [sp.fourier_transform] frequencies and [sp.sine_smooth] amplitudes. *)
Variable resp : signal -> R -> R -> res (list R * list R).
Variable four : signal -> res (list R * list R).

(** [np.min(np.where(x >= a)[0])] and [np.max(np.where(x <= a)[0])]. *)
Fixpoint first_ge (a : R) (l : list R) (i : nat) : res nat :=
  match l with [] => Err ValueError | x :: l' => if Rleb a x then Ok i else first_ge a l' (S i) end.
Fixpoint last_le (a : R) (l : list R) (i : nat) (acc : option nat) : res nat :=
  match l with
  | [] => match acc with Some k => Ok k | None => Err ValueError end
  | x :: l' => last_le a l' (S i) (if Rleb x a then Some i else acc)
  end.

(** Lines 642-663 and 831-857: [np.max(a, b)] of two floats raises TypeError. *)
Definition band (fmin fmax : option R) : res (R * R) :=
  match fmin, fmax with
  | Some a, Some b => if Rleb b a then Err ValueError else Ok (a, b)
  | _, _ => Err TypeError
  end.

(** helper_gof_scores.py:589-781 [d_89]; a zero [fmin] is not modelled. *)
Definition d_89 (m s : signal) (fmin fmax : option R) (baseline : bool) : res (list num) :=
  let! m1 := opt_bl baseline m in
  let! s1 := opt_bl baseline s in
  let! _ := first_step m1 in
  let! _ := first_step s1 in
  let! f := band fmin fmax in
  let! m2 := opt_bl baseline m1 in
  let! s2 := opt_bl baseline s1 in
  let Tmax := 1 / fst f in
  let Tmin := 1 / snd f in
  let! rm := resp m2 (Rmin Tmin (1/100)) (Rmax Tmax 5) in
  let! rs := resp s2 (Rmin Tmin (1/100)) (Rmax Tmax 5) in
  let! i1 := first_ge Tmin (fst rm) 0 in
  let! i2 := last_le Tmax (fst rm) 0 None in
  let! fm := four m2 in
  let! fs := four s2 in
  let! j1m := first_ge (fst f) (fst fm) 0 in
  let! j1s := first_ge (fst f) (fst fs) 0 in
  let! j2m := last_le (snd f) (fst fm) 0 None in
  let! j2s := last_le (snd f) (fst fs) 0 None in
  let! a8 := snd (S_array (map Fin (slice i1 (i2 + 1) (snd rm))) (map Fin (slice i1 (i2 + 1) (snd rs)))) in
  let! a9 := snd (S_array (map Fin (slice (Nat.max j1m j1s) (Nat.min j2m j2s + 1) (snd fm)))
                          (map Fin (slice (Nat.max j1m j1s) (Nat.min j2m j2s + 1) (snd fs)))) in
  Ok [nmean a8; nmean a9].

(** helper_gof_scores.py:784-902 [d_10].  NumPy floats: the square root of a
    negative number and 0/0 are NaN, 1/0 is infinite. *)
Definition d_10 (m s : signal) (fmin fmax : option R) (baseline : bool) : res num :=
  let! m1 := opt_bl baseline m in
  let! s1 := opt_bl baseline s in
  let! dt1 := first_step m1 in
  let! dt2 := first_step s1 in
  let! _ := band fmin fmax in
  assert! Nat.eqb (length m1) (length s1) else TypeError in
  let numer := rsum (map (fun p => fst p * snd p) (combine (vals m1) (vals s1))) * dt1 in
  let e1 := rsum (map (fun x => x * x) (vals m1)) * dt1 in
  let e2 := rsum (map (fun x => x * x) (vals s1)) * dt2 in
  let denom := sqrt e1 * sqrt e2 in
  Ok (if Rltb e1 0 || Rltb e2 0 then NaN
      else if Reqb denom 0 then (if Reqb numer 0 then NaN else Fin 0)
      else if Reqb numer 0 then PInf else Fin (1 / (10 * Rabs (numer / denom)))).

(** ** class_gof_scores.py *)

(** Rounding to float32 of the score slots (line 60). *)
Variable f32 : num -> num.

(** class_gof_scores.py:44-60: measurement, simulation, ten slots (the getters of lines
    93-104 return them as they are). *)
Record gof := mkgof { g_meas : signal; g_simu : signal; g_scores : list num }.
Definition gof_new (m s : signal) : res gof :=
  if Nat.eqb (length m) (length s) then Ok (mkgof m s (repeat NaN 10)) else Err TypeError.

(** Slots [k, k+1, ...] overwritten, lines 196-198, 209-211, 222-224, 235-236. *)
Fixpoint fill (slots : list num) (k : nat) (l : list num) : list num :=
  match l with [] => slots | x :: l' => fill (firstn k slots ++ f32 x :: skipn (S k) slots) (S k) l' end.

Record gopts := mkgopts { o_fmin : option R; o_fmax : option R; o_arias : bool; o_rms : bool; o_spectra : bool; o_cross : bool; o_baseline : bool }.

(** One of the four blocks of lines 187-236: the score slots, the returned array. *)
Definition block (on : bool) (k : nat) (d : res (list num)) (st : list num * res (list num)) : list num * res (list num) :=
  match st with
  | (slots, Ok out) => if on then match d with Ok l => (fill slots k l, Ok (out ++ l)) | Err e => (slots, Err e) end else (slots, Ok out)
  | (slots, Err e) => (slots, Err e)
  end.

(** class_gof_scores.py:105-274 [calc_scores]: the object afterwards and the
    returned array (or the exception, which keeps the slots filled so far). *)
Definition calc_scores (g : gof) (o : gopts) : gof * res (list num) :=
  match first_step (g_meas g) with
  | Err e => (g, Err e)
  | Ok dt =>
      let fs := 1 / dt in
      let fmax := match o_fmax o with Some f => f | None => fs / 2 end in
      let fmin := match o_fmin o with Some f => f | None => fs / INR (length (g_meas g)) end in
      if Rleb fmax fmin then (g, Err ValueError)
      else
        let m := g_meas g in
        let s := g_simu g in
        let b := o_baseline o in
        let r0 := (g_scores g, Ok []) in
        let r1 := block (o_arias o) 0 (d_1234 m s fmin (Some fmax) b) r0 in
        let r2 := block (o_rms o) 4 (d_567 m s fmin (Some fmax) b) r1 in
        let r3 := block (o_spectra o) 7 (d_89 m s (Some fmin) (Some fmax) b) r2 in
        let r4 := block (o_cross o) 9 (let! x := d_10 m s (Some fmin) (Some fmax) b in Ok [x]) r3 in
        (mkgof m s (fst r4), snd r4)
  end.

(** class_gof_scores.py:77-89 [__str__]: the average printed over the slots that
    are not NaN; [0 / 0] of Python integers raises.  An infinite slot makes the
    average infinite (only a positive infinity can be stored). *)
Definition str_average (g : gof) : res num :=
  let l := filter (fun x => match x with NaN => false | _ => true end) (g_scores g) in
  match l with
  | [] => Err ZeroDivisionError
  | _ => if existsb (fun x => match x with PInf => true | _ => false end) l then Ok PInf else Ok (nmean l)
  end.

(** class_gof_scores.py:280-360 [Batch_GOF_Scores.run]: the list of objects and the
    results.  Serially, element [i] of the batch is changed and returned; in parallel
    changed copies are returned.  The first exception ends the run. *)
Fixpoint batch_serial (l : list gof) (o : gopts) : list gof * res (list gof) :=
  match l with
  | [] => ([], Ok [])
  | g :: l' =>
      match calc_scores g o with
      | (g', Ok _) => let '(l2, r) := batch_serial l' o in (g' :: l2, let! r := r in Ok (g' :: r))
      | (g', Err e) => (g' :: l', Err e)
      end
  end.
Definition batch_parallel (l : list gof) (o : gopts) : list gof * res (list gof) :=
  (l, map_res (fun g => match calc_scores g o with (g', Ok _) => Ok g' | (_, Err e) => Err e end) l).
Definition batch_run (l : list gof) (parallel : bool) (o : gopts) : list gof * res (list gof) :=
  if parallel then batch_parallel l o else batch_serial l o.
End Gof.
