(** Model of the layer thicknesses aimed at by the randomisation of class_svm.py
    (SVM._thk_depth_func, 793-811, and the loops of lines 630-653). *)
From Coq Require Import Reals List Bool ZArith.
From Verif Require Import Base M_soil.
Import ListNotations.
Open Scope R_scope.

(** class_svm.py:793-811 [_thk_depth_func] of two numbers. *)
Definition thk_depth_func (thk z_top : R) : num :=
  match npow (z_top + thk / 2) (62 / 100) with
  | Fin r => Fin (1125 / 1000 * r - thk)
  | _ => NaN
  end.

(** Lines 630-653: [fsolve] is an argument; it is given the function, and the starting
    point [z_top + 4], and returns a number and whether the solution converged.  The loop
    repeats the same call; [fuel] bounds the repetitions. *)
Section Solve.
Variable fsolve : (R -> num) -> R -> R * bool.
Fixpoint mean_thk (fuel : nat) (z_top : R) : option R :=
  match fuel with
  | O => None
  | S n => let '(x, ok) := fsolve (fun thk => thk_depth_func thk z_top) (z_top + 4) in
           if ok then Some x else mean_thk n z_top
  end.
End Solve.
