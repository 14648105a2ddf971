(** Model of [numpy.interp] and of helper_generic.py:551-604 [interpolate]. *)
From Coq Require Import Reals List Bool ZArith Lia Lra.
From Verif Require Import Base M_generic M_motion M_soil.
Import ListNotations.
Open Scope R_scope.

(** [np.interp] at one point, for sample abscissae in increasing order (NumPy does
    not define the result otherwise): [x] is at or to the right of the first
    sample [(x0, y0)]; outside the samples the end values are returned. *)
Fixpoint interp_from (x x0 y0 : R) (rest : list (R * R)) : R :=
  match rest with
  | [] => y0
  | (x1, y1) :: rest' =>
      if Rltb x x1 then (if Reqb x x0 then y0 else (y1 - y0) / (x1 - x0) * (x - x0) + y0)
      else interp_from x x1 y1 rest'
  end.
Definition interp1 (pts : list (R * R)) (x : R) : res R :=
  match pts with
  | [] => Err ValueError         (* "array of sample points is empty" *)
  | (x0, y0) :: rest => Ok (if Rltb x x0 then y0 else interp_from x x0 y0 rest)
  end.
Definition np_interp (pts : list (R * R)) (xs : list R) : res (list R) :=
  match pts with [] => Err ValueError | _ => map_res (interp1 pts) xs end.

(** [np.logspace(a, b, n)]. *)
Definition logspace (a b : R) (n : nat) : list R := map (fun e => Rpower 10 e) (linspace a b n).

(** helper_generic.py:551-604 [interpolate] (positive query bounds for the log
    scale; [n_pts] a natural number). *)
Definition interpolate (xmin xmax : R) (n : nat) (ref : list (R * R)) (log_scale : bool) : res (list (R * R)) :=
  let xs := if log_scale then logspace (log10 xmin) (log10 xmax) n else linspace xmin xmax n in
  let! ys := np_interp ref xs in Ok (combine xs ys).
