(** Model, in double precision, of the evenly spaced axes: np.linspace, the times of a motion,
    the first column made for one-column data and its check, the common time axis of two
    motions, and the check that times are evenly spaced. *)
From Coq Require Import Reals List Bool ZArith.
From Flocq Require Import Core IEEE754.BinarySingleNaN.
From Verif Require Import Base M_float M_spectra.
Import ListNotations.
Open Scope Z_scope.

(** An integer as a float. *)
Definition fofZ (k : Z) : f64 := lit k 0.

(** numpy.linspace(a, b, num=n) of two floats (numpy/core/function_base.py): the step is
    (b - a) / (n - 1); entry k is k * step + a, the last one is b; if the step underflows to
    0, k / (n - 1) * (b - a) + a.  A negative n raises ValueError. *)
Definition linspace_f (a b : f64) (n : Z) : res (list f64) :=
  if n <? 0 then Err ValueError
  else if n =? 0 then Ok []
  else if n =? 1 then Ok [fadd (fmul (fofZ 0) (fsub b a)) a]
  else
    let delta := fsub b a in
    let step := fdiv delta (fofZ (n - 1)) in
    let entry (k : nat) :=
      let k := fofZ (Z.of_nat k) in
      fadd (if feq step f0 then fmul (fdiv k (fofZ (n - 1))) delta else fmul k step) a in
    Ok (map entry (seq 0 (Z.to_nat (n - 1))) ++ [b]).

(** class_ground_motion.py:182-184: the attribute [time] of a motion of [npts] samples. *)
Definition time_f (dt : f64) (npts : Z) : res (list f64) :=
  linspace_f f0 (fmul dt (fofZ (npts - 1))) npts.

(** 1e-8 and 1e-7. *)
Definition tol8 : f64 := lit 6044629098073146 (-79).
Definition tol7 : f64 := lit 7555786372591432 (-76).

Definition get_f (l : list f64) (k : nat) : res f64 :=
  match nth_error l k with Some x => Ok x | None => Err IndexError end.

(** helper_generic.py:205-211 [read_two_column_stuff]: the first column for [n] entries in one
    column and a given spacing. *)
Definition axis_f (delta : f64) (n : Z) : res (list f64) :=
  let! c := linspace_f delta (fmul (fofZ n) delta) n in
  let! c1 := get_f c 1 in
  let! c0 := get_f c 0 in
  if fle (fdiv (fabs (fsub (fsub c1 c0) delta)) delta) tol8 then Ok c else Err AssertionError.

(** Python's min(x, y) and max(x, y). *)
Definition pymin (x y : f64) : f64 := if flt y x then y else x.
Definition pymax (x y : f64) : f64 := if flt x y then y else x.

(** helper_site_response.py:2009-2028 [_align_two_time_arrays] of two one-dimensional arrays. *)
Definition align_f (t1 t2 : list f64) : res (list f64) :=
  if (Nat.ltb (List.length t1) 2 || Nat.ltb (List.length t2) 2)%bool then Err ValueError
  else
    let dt := pymin (fsub (nth 1 t1 f0) (nth 0 t1 f0)) (fsub (nth 1 t2 f0) (nth 0 t2 f0)) in
    let! n := fint (fceil (fdiv (pymax (last t1 f0) (last t2 f0)) dt)) in
    linspace_f dt (fmul dt (fofZ n)) n.

(** helper_site_response.py:547-552 [response_spectra]: are the times, one in [k] of which is used,
    evenly spaced? [false] raises ValueError; with fewer than two times, IndexError. *)
Definition even_f (k : nat) (t : list f64) : res bool :=
  let d := diffs_f (every k t) in
  let! d0 := get_f d 0 in
  Ok (forallb (fun x => flt (fsub x d0) tol7) d).
