(** Model of class_hh_calibration.py:61-159 [HH_Calibration] and of the file it
    writes (helper_hh_calibration.py:150-164, 294-308). *)
From Coq Require Import Reals List Bool ZArith String Lia Lra.
From Verif Require Import Base M_generic M_profile M_vs_profile M_motion M_soil M_interp M_params M_dampcal M_hhcal M_curvemat.
Import ListNotations.
Open Scope R_scope.
Open Scope string_scope.
Open Scope list_scope.

(** The five-column array of a profile, and class_Vs_profile.py:197. *)
Definition thk_col (rows : list (list R)) : list R := map (fun r => nth 0 r 0) rows.
Definition prof_layers (rows : list (list R)) : nat :=
  if Reqb (last (thk_col rows) 0) 0 then List.length rows - 1 else List.length rows.

(** The arguments of the constructor (line 61-67): a profile or not, curves,
    strengths. *)
Inductive curves_arg := NoCurves | BadCurves | SomeCurves (cs : list vcurve).
Inductive tmax_arg := NoTmax | BadTmax | SomeTmax (t : list R).
Record calib := mkcalib { k_rows : list (list R); k_curves : option (list vcurve); k_Tmax : option (list R) }.

(** class_hh_calibration.py:61-97 *)
Definition calib_init (prof : option (list (list R))) (c : curves_arg) (t : tmax_arg) : res calib :=
  match prof with
  | None => Err TypeError
  | Some rows =>
      let! cs := match c with
                 | NoCurves => Ok None
                 | BadCurves => Err TypeError
                 | SomeCurves cs => if Nat.eqb (List.length cs) (prof_layers rows) then Ok (Some cs) else Err ValueError
                 end in
      let! tm := match t with
                 | NoTmax => Ok None
                 | BadTmax => Err TypeError
                 | SomeTmax t => if Nat.eqb (List.length t) (prof_layers rows) then Ok (Some t) else Err ValueError
                 end in
      Ok (mkcalib rows cs tm)
  end.

(** Columns of the profile used by the calibration: thickness and Vs; density and
    material number without the last row (helper_hh_calibration.py:241-246; the
    material numbers are converted to integers by the format check). *)
Definition two_cols (rows : list (list R)) : list layer := map (fun r => (nth 0 r 0, nth 1 r 0)) rows.
Definition rho_mats (rows : list (list R)) : list R * list nat :=
  (map (fun r => nth 3 r 0) (removelast rows), map (fun r => Z.to_nat (Int_part (nth 4 r 0))) (removelast rows)).

Section Fit.
Variable fitter : list (R * R) -> res (R * R * R).

(** class_hh_calibration.py:137-155: the (9, n) array, by columns. *)
Definition calib_columns (k : calib) : res (list (list R)) :=
  match k_curves k with
  | None => hh_param_from_profile (two_cols (k_rows k)) (k_Tmax k)
  | Some cs =>
      let! M := curve_matrix KG 1 cs in
      hh_param_from_curves fitter (two_cols (k_rows k)) (Some (rho_mats (k_rows k))) (4 * List.length cs) M (k_Tmax k)
  end.

(** helper_hh_calibration.py:150-162: what is written: directory, file name, and
    one row per parameter printed with [fmt]. *)
Record saved := mksaved { s_dir : string; s_name : string; s_rows : list (list R) }.

(** class_hh_calibration.py:99-159 [fit]; [now] is the current time as text,
    [fmt] the effect of printing with [%.6g].  Figures are not modelled. *)
Definition calib_fit (now : string) (fmt : R -> R) (k : calib) (save : bool) (dir name : option string) : res (list dict * option saved) :=
  let! cols_ := calib_columns k in
  let! file := if save then
                 match dir with
                 | None => Err ValueError
                 | Some d => Ok (Some (mksaved d ("HH_G_" ++ (match name with None => now | Some n => n end) ++ ".txt")%string
                                               (map (map fmt) (transpose_R 9 cols_))))
                 end
               else Ok None in
  let! ds := multi_from_array HH (List.length cols_) (transpose_R 9 cols_) in
  Ok (ds, file).
End Fit.
