(** Model of PySeismoSoil/class_damping_calibration.py: damping curves of a profile by the
    formulas of Darendeli, and the parameters fitted to them. *)
From Coq Require Import Reals List Bool ZArith String Lia Lra.
From Verif Require Import Base M_generic M_profile M_vs_profile M_motion M_soil M_interp M_params M_curves M_hhcal.
Import ListNotations.
Open Scope R_scope.
Open Scope list_scope.

(** class_damping_calibration.py, lines 57-68: the state of the soil layers; [rows] are the rows of the table of a
    [Vs_Profile], which always has five columns (see [C08_constructed_profile]), so that the branch of
    line 63 is not taken.  (Line 799 of helper_hh_calibration.py would rewrite a zero thickness
    of the last soil layer; a profile has none.) *)
Definition dc_soils (rows : list (list R)) : res (list soil) :=
  let layers := removelast rows in
  let Vs := map (cell 1) layers in
  let! hs := calc_vertical_stress (map (cell 0) layers) (map (cell 3) layers) in
  let sv := snd hs in
  let ocr := calc_OCR None Vs sv in
  Ok (map (fun q => mksoil (fst (snd q)) (PI_at (fst q)) (snd (snd q)) (K0_at 30 (snd (snd q)))) (combine Vs (combine sv ocr))).

(** class_damping_calibration.py, lines 80-84: the damping of one layer; [D] is the damping of the profile. *)
Definition dc_values (use_Dmin : bool) (xi : list R) (D : R) : res (list R) :=
  if use_Dmin then Ok xi
  else match xi with [] => Err IndexError | x0 :: _ => Ok (map (fun v => v - x0 + D) xi) end.

(** class_damping_calibration.py, lines 79-95: the curves, in order; every array is new. *)
Fixpoint dc_build (sh : sheap) (strain : list R) (use_Dmin : bool) (l : list (list R * R)) : sheap * res (list curve) :=
  match l with
  | [] => (sh, Ok [])
  | (xi, D) :: l' =>
      match dc_values use_Dmin xi D with
      | Err e => (sh, Err e)
      | Ok x =>
          match damping_init (sh ++ [combine strain x]) (List.length sh) SPct S1 None true with
          | (sh1, Err e) => (sh1, Err e)
          | (sh1, Ok c) => let '(sh2, r) := dc_build sh1 strain use_Dmin l' in (sh2, let! cs := r in Ok (c :: cs))
          end
      end
  end.

(** class_damping_calibration.py, lines 30-102 [get_damping_curves]; the assertion of line 77 compares the number of layers
    with itself. *)
Definition get_damping_curves (sh : sheap) (rows : list (list R)) (strain : list R) (use_Dmin : bool) : sheap * res (list curve) :=
  match (let! ls := dc_soils rows in produce_Darendeli_curves ls (Some strain)) with
  | Err e => (sh, Err e)
  | Ok out => dc_build sh strain use_Dmin (combine (map (fun q => snd (fst q)) out) (map (cell 2) (removelast rows)))
  end.

(** [np.geomspace(1e-4, 15, 100)], class_damping_calibration.py, lines 123 and 151. *)
Definition geomspace (a b : R) (n : nat) : list R := map (fun t => Rpower 10 t) (linspace (log10 a) (log10 b) n).
Definition calibration_strain : list R := geomspace (1 / 10000) 15 100.

(** class_curves.py:1068-1103 [get_all_HH_x_params] and 1186-1221 [get_all_H4_x_params] on the
    curves, without files and figures. *)
Definition all_HH_x (opt : list (R * R) -> list R) (parallel : bool) (sh : sheap) (cs : list curve) : sheap * res (list dict) :=
  let '(sh1, r) := fit_all (fit_HH opt) parallel sh (map c_raw cs) in
  (sh1, let! ps := r in map_res (fun d => param_init HH_keys (Some d)) ps).
Definition all_H4_x (opt : list (R * R) -> list R) (parallel : bool) (sh : sheap) (cs : list curve) : sheap * res (list dict) :=
  let '(sh1, r) := fit_all (fit_H4 opt) parallel sh (map c_raw cs) in
  (sh1, let! ps := r in map_res (fun d => param_init MKZ_keys (Some d)) ps).

(** class_damping_calibration.py, lines 104-127 [get_HH_x_param]. *)
Definition dc_HH_x (opt : list (R * R) -> list R) (parallel : bool) (sh : sheap) (rows : list (list R)) : sheap * res (list dict) :=
  match get_damping_curves sh rows calibration_strain false with
  | (sh1, Err e) => (sh1, Err e)
  | (sh1, Ok cs) => all_HH_x opt parallel sh1 cs
  end.
(** class_damping_calibration.py, lines 129-154 [get_H4_x_param]: line 153 calls [get_all_HH_x_params]. *)
Definition dc_H4_x (opt : list (R * R) -> list R) (parallel : bool) (sh : sheap) (rows : list (list R)) : sheap * res (list dict) :=
  match get_damping_curves sh rows calibration_strain false with
  | (sh1, Err e) => (sh1, Err e)
  | (sh1, Ok cs) => all_HH_x opt parallel sh1 cs
  end.
