(** Model of the figures of HH calibrations and of the images written by them,
    helper_hh_calibration.py:433-443 and 525-658,
    with that of the MKZ fits, helper_mkz_model.py:404-435. *)
From Coq Require Import Reals List Bool ZArith String.
From Verif Require Import Base M_generic M_profile M_interp M_soil M_curves M_amplify M_hhcal M_fits M_sitefactors M_figures M_figres.
Import ListNotations.
Open Scope string_scope.
Open Scope list_scope.
Open Scope R_scope.

(** The nine parameters of one layer, in the order of lines 515-523. *)
Record hh9 := mkhh9 { y_gt : R; y_a : R; y_gr : R; y_beta : R; y_s : R; y_G : R; y_mu : R; y_T : R; y_d : R }.
Definition hh9_of (c : list R) : hh9 :=
  mkhh9 (nth 0 c 0) (nth 1 c 0) (nth 2 c 0) (nth 3 c 0) (nth 4 c 0) (nth 5 c 0) (nth 6 c 0) (nth 7 c 0) (nth 8 c 0).

(** Lines 433-443: the stress of the modulus reduction data; the first one is set to 0. *)
Definition data_stress (G : R) (strain GG : list R) : list R :=
  match zipw (fun e g => g * G * e / 100) strain GG with [] => [] | _ :: l => 0 :: l end.
(** Lines 492-513, 525: the FKZ and HH stresses and the HH modulus reduction (finite for positive
    parameters and strains, so that NaN is not propagated here, as in [M_hhcal]). *)
Definition fkz_stress (y : hh9) (strain : list R) : list R := T_FKZ (y_G y) (y_mu y) (y_d y) (y_T y) (map (fun e => e / 100) strain).
Definition hh_stress (y : hh9) (strain : list R) : list R :=
  map (fun e => nval (tau_HH_at (y_gt y) (y_a y) (y_gr y) (y_beta y) (y_s y) (y_G y) (y_mu y) (y_T y) (y_d y) (e / 100))) strain.
Definition hh_ratio (y : hh9) (strain : list R) : list R :=
  zipw (fun t e => t / (y_G y * (e / 100))) (hh_stress y strain) strain.
(** Lines 625-630: the line drawn for FKZ in the lower panel. *)
Definition fkz_ratio_line (y : hh9) (strain : list R) : list R :=
  map (fun e => y_mu y / (1 + y_G y / y_T y * y_mu y * Rabs (e / 100))) strain.
Definition kPa (l : list R) : list R := map (fun t => t / 1000) l.

(** Lines 527-644: the figure of one layer.  The vertical lines at the transition strain (their ends are
    the limits of the axes), the titles and the styles are left out. *)
Definition layer_figure (given : bool) (strain GG : list R) (y : hh9) : draws nat :=
  do f <- new_figure;
  do a <- add_subplot f;
  do _ <- draw a strain (kPa (data_stress (y_G y) strain GG)) (Some (if given then "Given $G/G_{\max}$" else "MKZ"));
  do _ <- draw a strain (kPa (fkz_stress y strain)) (Some "FKZ");
  do lo <- lift (rmin1 strain);
  do hi <- lift (rmax1 strain);
  do _ <- draw a [lo; hi] (kPa [y_T y; y_T y]) None;
  do _ <- draw a strain (kPa (hh_stress y strain)) (Some "HH");
  do _ <- set_ylabel a "Stress [kPa]";
  do _ <- set_xlim a lo hi;
  do b <- add_subplot f;
  do _ <- draw b strain GG None;
  do _ <- draw b strain (fkz_ratio_line y strain) None;
  do _ <- draw b strain (hh_ratio y strain) None;
  do _ <- set_ylabel b "$G/G_{\max}$";
  do _ <- set_xlim b lo hi;
  done f.

(** Lines 646-656: the name of the image of layer [j] (counted from 0). *)
Definition image_name (j : nat) : string := ("Stress_GGmax_of_Layer_#" ++ dec (Z.of_nat (j + 1)) ++ ".png")%string.

(** The loop of lines 481-658 as far as it draws and saves. *)
Fixpoint hh_figures (given show save : bool) (dir : option string) (j : nat) (layers : list (list R * list R * hh9)) (c : canvas) (d : disk)
    : canvas * disk * res unit :=
  match layers with
  | [] => (c, d, Ok tt)
  | (strain, GG, y) :: rest =>
      if show then
        match layer_figure given strain GG y c with
        | (c1, Err e) => (c1, d, Err e)
        | (c1, Ok _) =>
            if save then
              match dir with
              | None => (c1, d, Err ValueError)
              | Some s =>
                  match savefig d s (image_name j) with
                  | (d1, Err e) => (c1, d1, Err e)
                  | (d1, Ok _) => hh_figures given show save dir (S j) rest c1 d1
                  end
              end
            else hh_figures given show save dir (S j) rest c1 d
        end
      else hh_figures given show save dir (S j) rest c d
  end.

(** Everything that can fail in the computation of the parameters comes before the loop. *)
Definition with_figures (given show save : bool) (dir : option string) (cols : res (list (list R))) (layers : list (list R) -> list (list R * list R * hh9))
    (c : canvas) (d : disk) : canvas * disk * res (list (list R)) :=
  match cols with
  | Err e => (c, d, Err e)
  | Ok ps => match hh_figures given show save dir 0 (layers ps) c d with
             | (c1, d1, Ok _) => (c1, d1, Ok ps)
             | (c1, d1, Err e) => (c1, d1, Err e)
             end
  end.

(** helper_hh_calibration.py:50-164 [hh_param_from_profile] with [show_fig], [save_fig] and [fig_output_dir];
    lines 418-431: the strains and Darendeli's curve of every layer. *)
Definition darendeli_data (ps : list (list R)) : list (list R * list R * hh9) :=
  map (fun p => (dense_strain_pct, map (dar_GGmax (y_gr (hh9_of p) * 100)) dense_strain_pct, hh9_of p)) ps.
Definition hh_from_profile_show (show save : bool) (dir : option string) (p : list layer) (Tmax : option (list R)) (c : canvas) (d : disk) :=
  with_figures false show save dir (hh_param_from_profile p Tmax) darendeli_data c d.

(** helper_mkz_model.py:404-435: the figure of the MKZ fits, one panel per layer ([mkz_ratio_at] of the row gamma_ref, 0, s,
    beta; finite for positive parameters).  Titles, grid positions and styles are left out. *)
Definition fit_line (y : hh9) : list R := map (fun g => nval (mkz_ratio_at [y_gr y; 0; y_s y; y_beta y] g)) fit_strain.
Fixpoint fit_panels_of (f : nat) (layers : list (list R * list R * hh9)) : draws unit :=
  match layers with
  | [] => done tt
  | (strain, GG, y) :: rest =>
      do a <- add_subplot f;
      do _ <- draw a (map (fun e => e / 100 * 100) strain) GG (Some "Data points");
      do _ <- draw a (map (fun g => g * 100) fit_strain) (fit_line y) (Some "Curve fit");
      do _ <- set_ylabel a "G/Gmax";
      fit_panels_of f rest
  end.
Definition fit_figure (layers : list (list R * list R * hh9)) : draws unit :=
  do f <- new_figure; fit_panels_of f layers.

(** helper_hh_calibration.py:167-308 [hh_param_from_curves], the same, after the figure of the fits (line 447).
    [E] is the matrix of curves expanded by material number. *)
Definition curve_data (E : list (list R)) (ps : list (list R)) : list (list R * list R * hh9) :=
  map (fun jp => (map (fun r => nth (fst jp * 4) r 0) E, map (fun r => nth (fst jp * 4 + 1) r 0) E, hh9_of (snd jp))) (combine (seq 0 (List.length ps)) ps).
Definition hh_from_curves_show (fit : list (R * R) -> res (R * R * R)) (show save : bool) (dir : option string) (p : list layer)
    (rho : list R) (mats : list nat) (w : nat) (curves : list (list R)) (Tmax : option (list R)) (c : canvas) (d : disk) :=
  match hh_param_from_curves fit p (Some (rho, mats)) w curves Tmax with
  | Err e => (c, d, Err e)
  | Ok ps =>
      let layers := curve_data (expand_curves curves mats) in
      match (if show then fit_figure (layers ps) c else (c, Ok tt)) with
      | (c0, Err e) => (c0, d, Err e)
      | (c0, Ok _) => with_figures true show save dir (Ok ps) layers c0 d
      end
  end.
