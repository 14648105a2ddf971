(** Model, in double precision, of [np.interp] as it is called by the library
    (class_curves.py:975 and 1444, helper_generic.py:602, helper_hh_model.py:242,
    helper_mkz_model.py:136, helper_signal_processing.py:804, helper_simulations.py:397-401,
    helper_site_response.py:1592-1593 and 1973-1974), without [left], [right] and [period]. *)
From Coq Require Import Reals List Bool ZArith.
From Flocq Require Import Core IEEE754.BinarySingleNaN.
From Verif Require Import Base M_float M_ftime M_fquery.
Import ListNotations.

(** numpy/core/src/multiarray/compiled_base.c, arr_interp, for one query.  The interval is found as the
    number of abscissae not above [x] (numpy starts its search from a guess, which does not matter for
    sorted abscissae).  A result of NaN is retried from the right end of the interval.  A query of NaN gives NaN, except for data of one
    point, for which numpy only compares ([x < xp], [x > xp]) and so returns the ordinate.  Products and sums are
    taken to be rounded separately (no fused operation). *)
Definition line_f (x x0 x1 y0 y1 : f64) : f64 :=
  let slope := fdiv (fsub y1 y0) (fsub x1 x0) in
  let r := fadd (fmul slope (fsub x x0)) y0 in
  if fnan r then
    let r' := fadd (fmul slope (fsub x x1)) y1 in
    if (fnan r' && feq y0 y1)%bool then y0 else r'
  else r.
Definition interp1_f (xp fp : list f64) (x : f64) : f64 :=
  if fnan x then (if Nat.eqb (length xp) 1 then nth 0 fp f0 else x)
  else
    let n := search_right xp x in
    if Nat.eqb n 0 then nth 0 fp f0
    else if Nat.eqb n (length xp) then nth (n - 1) fp f0
    else if feq (nth (n - 1) xp f0) x then nth (n - 1) fp f0
    else line_f x (nth (n - 1) xp f0) (nth n xp f0) (nth (n - 1) fp f0) (nth n fp f0).
(** Empty data and data of different lengths raise. *)
Definition interp_f (xp fp xs : list f64) : res (list f64) :=
  if (Nat.eqb (length xp) 0 || negb (Nat.eqb (length xp) (length fp)))%bool then Err ValueError
  else Ok (map (interp1_f xp fp) xs).

(** helper_generic.py:551-604 [interpolate] on a linear scale. *)
Definition interpolate_f (xmin xmax : f64) (n : Z) (xp fp : list f64) : res (list f64 * list f64) :=
  let! xs := linspace_f xmin xmax n in
  let! ys := interp_f xp fp xs in
  Ok (xs, ys).
