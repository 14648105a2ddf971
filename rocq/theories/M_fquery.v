(** Model, in double precision, of the queries of a velocity profile: velocities at given
    depths, for a given thickness array, and the average velocity of the top Z metres. *)
From Coq Require Import Reals List Bool ZArith.
From Flocq Require Import Core IEEE754.BinarySingleNaN.
From Verif Require Import Base M_float.
Import ListNotations.

(** A row of a profile: thickness and velocity (further columns are not used here). *)
Notation frow := (f64 * f64)%type.

(** numpy's order of floats in a search: NaN comes last. *)
Definition le_last (x v : f64) : bool := negb (flt v x || (fnan x && negb (fnan v))).
(** numpy.searchsorted(a, v, side='right') for one [v] (npyx_binsearch of numpy/core): bisection between [lo]
    and [hi].  Not modelled: numpy starts from the bounds of the previous key, which does not
    matter for a sorted array. *)
Fixpoint bisect (fuel : nat) (a : list f64) (v : f64) (lo hi : nat) : nat :=
  match fuel with
  | O => lo
  | S fuel =>
      if Nat.ltb lo hi then
        let m := (lo + (hi - lo) / 2)%nat in
        if le_last (nth m a f0) v then bisect fuel a v (S m) hi else bisect fuel a v lo m
      else lo
  end.
Definition search_right (a : list f64) (v : f64) : nat := bisect (S (length a)) a v 0 (length a).

(** helper_site_response.py:126-197 [query_Vs_at_depth] of a profile and an array of depths (a
    single depth is an array of one); the velocities only.  [Nat.pred] is line 194. *)
Definition query_f (p : list frow) (depth : list f64) : res (list f64) :=
  if existsb (fun z => flt z f0) depth then Err ValueError
  else
    let! dep_ref := thk2dep_f (map fst p) false in
    Ok (map (fun z => nth (Nat.pred (search_right dep_ref z)) (map snd p) f0) depth).

(** helper_site_response.py:200-262 [query_Vs_given_thk] with a thickness array: the velocities. *)
Definition query_thk_f (p : list frow) (thk : list f64) (at_midpoint : bool) : res (list f64) :=
  let! depth := thk2dep_f thk at_midpoint in
  query_f p depth.
(** With one thickness and a number of layers (lines 249-257): thk * np.ones(n_layers). *)
Definition f1 : f64 := lit 1 0.
Definition query_const_f (p : list frow) (thk : f64) (n_layers : Z) (at_midpoint : bool) : res (list f64) :=
  if Z.leb n_layers 0 then Err ValueError
  else query_thk_f p (repeat (fmul thk f1) (Z.to_nat n_layers)) at_midpoint.

(** helper_site_response.py:875-886: the loop of [calc_VsZ]; [dep] is depth[i], [cum] is cumul_sl. *)
Fixpoint slow_f (Z dep cum : f64) (p : list frow) : f64 :=
  match p with
  | [] => cum
  | (h, v) :: r =>
      let d := fadd dep h in
      let s := fdiv f1 v in
      let cum1 := if flt d Z then fadd cum (fmul s h) else cum in
      if fle Z d then fadd cum1 (fmul s (fsub h (fsub d Z))) else slow_f Z d cum1 r
  end.
(** Line 873: Python's sum(), from left to right, starting with 0. *)
Definition pysum (l : list f64) : f64 := fold_left fadd l f0.
(** np.min of two numbers: NaN if one is. *)
Definition fmin (x y : f64) : f64 :=
  if fnan x then x else if fnan y then y else if fle x y then x else y.
(** helper_site_response.py:837-904 [calc_VsZ] (an option other than 1 or 2 leaves VsZ unbound).
    The divisions are numpy's: by 0 they give an infinity or NaN, with a warning.  For an empty
    profile, which no checked profile is, cumul_sl is a Python float, and line 899 raises. *)
Definition VsZ_f (p : list frow) (Z : f64) (option_ : nat) : res f64 :=
  let total := pysum (map fst p) in
  let cum := slow_f Z f0 f0 p in
  match option_ with
  | 1%nat =>
      if flt total Z then
        match p with
        | [] => Err IndexError
        | _ => Ok (fdiv Z (fadd cum (fmul (fdiv f1 (last (map snd p) f0)) (fsub Z total))))
        end
      else match p with [] => Err ZeroDivisionError | _ => Ok (fdiv Z cum) end
  | 2%nat => Ok (fdiv (fmin total Z) cum)
  | _ => Err UnboundLocalError
  end.
(** helper_site_response.py:907-943 [calc_Vs30]. *)
Definition Vs30_f (p : list frow) (option_ : nat) : res f64 := VsZ_f p (lit 30 0) option_.
