(** Model of PySeismoSoil/helper_hh_calibration.py (calibration of HH parameters
    from a Vs profile, with or without G/Gmax curves).  Real numbers replace
    float64; plotting and printing are dropped. *)
From Coq Require Import Reals List Bool ZArith Lia Lra.
From Verif Require Import Base M_generic M_profile M_soil M_motion M_interp.
Import ListNotations.
Open Scope R_scope.

(** Element-wise combination of two arrays of the same length. *)
Definition zipw {A B C} (f : A -> B -> C) (a : list A) (b : list B) : list C :=
  map (fun p => f (fst p) (snd p)) (combine a b).

(** helper_hh_calibration.py:720-737 [_calc_Gmax]. *)
Definition calc_Gmax (Vs rho : list R) : list R := zipw (fun v r => r * v ^ 2) Vs rho.

(** helper_hh_calibration.py:842-853: density of one layer from the depth of its
    middle.  An exactly zero denominator (infinite density in NumPy) is excluded
    by hypotheses where it matters. *)
Definition rho_den (z v : R) : R := 614/1000 + 587/10 * (log10 z + 1095/1000) / v.
Definition rho_at (z v : R) : R :=
  let z := if Reqb z 0 then 1/10000 else z in
  Rmax (165/100) (1 + 1 / rho_den z v) * 1000.

(** helper_hh_calibration.py:814-854 [_calc_rho]; arrays of different lengths do
    not broadcast (one-element arrays are not modelled). *)
Definition calc_rho (h Vs : list R) : res (list R) :=
  let! z := thk2dep h true in
  assert! Nat.eqb (length z) (length Vs) else ValueError in Ok (zipw rho_at z Vs).

(** helper_hh_calibration.py:801-809: the accumulation loop; [s] and [half] are the
    stress at the previous mid-point and the weight of the lower half of the
    previous layer. *)
Definition grav : R := 981/100.
Fixpoint stress_scan (s half : R) (hr : list (R * R)) : list R :=
  match hr with
  | [] => []
  | (h, r) :: hr' =>
      let half' := r * grav * h / 2 in
      (s + half + half') :: stress_scan (s + half + half') half' hr'
  end.

(** helper_hh_calibration.py:774-811 [_calc_vertical_stress]; the result holds
    the array [h] after the call (line 799 rewrites a zero last thickness). *)
Definition calc_vertical_stress (h rho : list R) : res (list R * list R) :=
  let! h_last := last_res h in
  let h' := if Reqb h_last 0 then removelast h ++ [1] else h in
  assert! Nat.leb (length h) (length rho) else IndexError in
  Ok (h', stress_scan 0 0 (combine h' rho)).

(** helper_hh_calibration.py:740-771 [_calc_OCR]; [None] is no upper limit. *)
Definition OCR_at (limit : option R) (v sv : R) : R :=
  let o := 106/1000 * Rpower v (147/100) * 1000 / sv in
  match limit with None => o | Some l => Rmin o l end.
Definition calc_OCR (limit : option R) (Vs sigma_v0 : list R) : list R := zipw (OCR_at limit) Vs sigma_v0.

(** helper_hh_calibration.py:884-908 [_calc_K0] for one layer, [phi] in degrees. *)
Definition deg2rad (x : R) : R := x * PI / 180.
Definition K0_at (phi OCR : R) : R := (1 - sin (deg2rad phi)) * Rpower OCR (sin (deg2rad phi)).

(** helper_hh_calibration.py:857-881 [_calc_PI]. *)
Definition PI_at (v : R) : R := if Rleb v 200 then 10 else if Rleb v 360 then 5 else 0.

(** helper_hh_calibration.py:1029-1048 [_calc_mean_confining_stress]. *)
Definition mean_stress_at (sv K0 : R) : R := (2 * K0 + 1) / 3 * sv.

(** helper_hh_calibration.py:698-714: shear strength of one layer. *)
Definition strength_at (phi v ocr sv K0 : R) : R :=
  if Rleb v 760 then 12/10 * (28/100) * Rpower ocr (8/10) * sv
  else
    let sh := K0 * sv in
    let s1 := Rmax sv sh in
    let s3 := Rmin sv sh in
    let sn := (s1 + s3) / 2 - (s1 - s3) / 2 * sin (deg2rad phi) in
    12/10 * sn * tan (deg2rad phi).

(** helper_hh_calibration.py:452-466: the parameter mu of one layer; [p0] in Pa. *)
Definition mu_raw (G T ocr p0 : R) : R :=
  1 / (872/1000000 * G / T * Rpower ocr (47/100) * Rpower (p0 / 1000) (28/100)).
Definition mu_adjust (m : R) : R :=
  if Rleb m (2/100) then m * Rpower 10 (236/1000 * 3)
  else if Rleb m (3/100) then m * Rpower 10 (236/1000 * 2)
  else if Rleb m (4/100) then m * Rpower 10 (236/1000 * 1)
  else m.

(** ** Darendeli curves, helper_hh_calibration.py:911-1026 *)
Definition phi5 : R := 919/1000.
(** Eq 9.1a; [p] is the mean stress in atmospheres; unit percent. *)
Definition gamma_r_pct (PIx ocr p : R) : R :=
  (352/10000 + 10/10000 * PIx * Rpower ocr (3246/10000)) * Rpower p (3483/10000).
(** Eq 9.2a (positive strain). *)
Definition dar_GGmax (gr g : R) : R := 1 / (1 + Rpower (g / gr) phi5).
(** Page 226 of the reference. *)
Definition dar_c1 : R := - (11143/10000) * phi5 ^ 2 + 18618/10000 * phi5 + 2523/10000.
Definition dar_c2 : R := 805/10000 * phi5 ^ 2 - 710/10000 * phi5 - 95/10000.
Definition dar_c3 : R := - (5/10000) * phi5 ^ 2 + 2/10000 * phi5 + 3/10000.
Definition dar_masing1 (gr g : R) : R :=
  100 / PI * (4 * (g - gr * ln ((g + gr) / gr)) / (g ^ 2 / (g + gr)) - 2).
Definition dar_masing (gr g : R) : R :=
  let m := dar_masing1 gr g in dar_c1 * m + dar_c2 * m ^ 2 + dar_c3 * m ^ 3.
Definition dar_b : R := 6329/10000 + - (57/10000) * ln 10.
Definition dar_Dmin (PIx ocr p : R) : R :=
  (8005/10000 + 129/10000 * PIx * Rpower ocr (- (1069/10000))) * Rpower p (- (2889/10000)) * (1 + 2919/10000 * ln 1).
Definition dar_xi (PIx ocr p gr g : R) : R :=
  (dar_b * Rpower (dar_GGmax gr g) (1/10) * dar_masing gr g + dar_Dmin PIx ocr p) / 100.

(** One layer: (vertical stress, PI, OCR, K0). *)
Record soil := mksoil { s_sv : R; s_PI : R; s_OCR : R; s_K0 : R }.
Definition atm_of (l : soil) : R := mean_stress_at (s_sv l) (s_K0 l) / 101325.

(** The whole function with the per-layer arguments already extended to arrays;
    [strain = None] reaches [len(strain_in_pct)] (line 999) and raises.  The
    result lists, per layer, the modulus curve, the damping curve and the
    reference strain (unit 1). *)
Definition produce_Darendeli_curves (ls : list soil) (strain : option (list R)) : res (list (list R * list R * R)) :=
  match strain with
  | None => Err TypeError
  | Some gs =>
      Ok (map (fun l =>
        let gr := gamma_r_pct (s_PI l) (s_OCR l) (atm_of l) in
        (map (dar_GGmax gr) gs, map (dar_xi (s_PI l) (s_OCR l) (atm_of l) gr) gs, gr / 100)) ls)
  end.

(** ** The FKZ search, helper_hh_calibration.py:1051-1268 *)

(** Stresses are finite for positive parameters and non-negative strains (see
    [kernel_stresses_finite]); NaN is not propagated here. *)
Definition nval (x : num) : R := match x with Fin r => r | _ => 0 end.
Definition T_MKZ (gr beta s G : R) (x : list R) : list R := map (fun g => nval (tau_MKZ gr beta s G g)) x.
Definition T_FKZ (G mu d T : R) (x : list R) : list R := map (fun g => nval (tau_FKZ G mu d T g)) x.

(** Lines 1204, 1257: [find_closest_index(np.abs(T_MKZ - T_FKZ), 0)]; the strain
    array is not empty. *)
Definition crossover (TM TF : list R) : nat :=
  argmin (map (fun v => Rabs (v - 0)) (zipw (fun a b => Rabs (a - b)) TM TF)).

(** Lines 1252-1264 for one value of d; [None] is infinity.  [LB] and [UB] are in
    percent; the end points of [np.geomspace] are its arguments. *)
Definition area_at (x TM : list R) (G mu T LB UB d : R) : option R :=
  let TF := T_FKZ G mu d T x in
  let c := crossover TM TF in
  let gt := nth c x 0 in
  if Rleb (LB / 100) gt && Rleb gt (UB / 100)
  then Some (sqrt (rsum (map (fun e => e ^ 2) (firstn (S c) (zipw (fun a b => Rabs (a - b)) TM TF)))) / (INR c + 1))
  else None.

(** [np.argmin] over a list with infinities: first index of the smallest value. *)
Definition olt (a b : option R) : bool :=
  match a, b with
  | Some x, Some y => Rltb x y
  | Some _, None => true
  | None, _ => false
  end.
Fixpoint oargmin_from (best : option R) (ibest i : nat) (l : list (option R)) : nat :=
  match l with
  | [] => ibest
  | a :: l' => if olt a best then oargmin_from a i (S i) l' else oargmin_from best ibest (S i) l'
  end.
Definition oargmin (l : list (option R)) : nat := match l with [] => 0%nat | a :: l' => oargmin_from a 0 1 l' end.
Definition any_finite (l : list (option R)) : bool := existsb (fun a => match a with Some _ => true | None => false end) l.

(** Lines 1161-1208 [__find_x_t_and_d]. *)
Definition find_x_t_and_d (area : list (option R)) (range_d x TM : list R) (G mu T : R) : R * R :=
  let d := nth (oargmin area) range_d 0 in
  (nth (crossover TM (T_FKZ G mu d T x)) x 0, d).

(** One search pass (lines 1110-1115, 1116-1131, 1132-1150). *)
Definition search (n : nat) (x TM : list R) (G mu T LB UB : R) : option (R * R) :=
  let range_d := linspace (67/100) (139/100) n in
  let area := map (area_at x TM G mu T LB UB) range_d in
  if any_finite area then Some (find_x_t_and_d area range_d x TM G mu T) else None.

(** Lines 1093-1107: the lower bound of the transition strain (percent). *)
Definition closest_stress (x TM : list R) (v : R) : R :=
  nth (argmin (map (fun g => Rabs (g - v)) x)) TM 0.
Definition lower_bound (x TM : list R) (T mu : R) : R :=
  let LB := if Rleb mu (3/100) then 1/1000 else 1/100 in
  let LB := if Rleb (85/100 * T) (closest_stress x TM (LB / 100)) then 5/1000 else LB in
  if Rleb (85/100 * T) (closest_stress x TM (LB / 100)) then 1/1000 else LB.

(** helper_hh_calibration.py:1051-1158 [_optimization_kernel]: (a, gamma_t, d). *)
Definition optimization_kernel (x : list R) (gr beta s G T mu : R) : R * R * R :=
  let TM := T_MKZ gr beta s G x in
  let LB := lower_bound x TM T mu in
  let '(gt, d) :=
    match search 200 x TM G mu T LB 3 with
    | Some r => r
    | None =>
        match search 400 x TM G mu T LB 3 with
        | Some r => r
        | None =>
            match search 1000 x TM G mu T (5/1000) 3 with
            | Some r => r
            | None => (1/1000 / 100, 103/100)
            end
        end
    end in
  (100, gt, d).

(** ** Whole calibrations *)

(** helper_hh_calibration.py:474-523: the parameters of one layer in the order
    gamma_t, a, gamma_ref, beta, s, Gmax, mu, Tmax, d. *)
Definition layer_params (strain_pct : list R) (gr beta s G T mu : R) : list R :=
  let '(a, gt, d) := optimization_kernel (map (fun g => g / 100) strain_pct) gr beta s G T mu in
  [gt; a; gr; beta; s; G; mu; T; d].

(** Soil state of every layer, lines 121-133 and 254-262 (phi = 30). *)
Definition soil_state (h Vs rho : list R) : res (list (R * R * R * R * R)) :=
  let G := calc_Gmax Vs rho in
  let! hs := calc_vertical_stress h rho in
  let sv := snd hs in
  let ocr := calc_OCR None Vs sv in
  let K0 := map (K0_at 30) ocr in
  Ok (combine (combine (combine (combine Vs G) sv) ocr) K0).

(** Lines 117-119, 251-252, 134-135 and 264-265. *)
Definition strengths (Tmax : option (list R)) (st : list (R * R * R * R * R)) : res (list R) :=
  match Tmax with
  | Some t => if Nat.eqb (length t) (length st) then Ok t else Err ValueError
  | None => Ok (map (fun '(v, G, sv, o, k) => strength_at 30 v o sv k) st)
  end.

(** [np.geomspace(1e-4, 10, 400)], line 418. *)
Definition dense_strain_pct : list R := logspace (-4) 1 400.

(** Lines 407-467 and 474-523 without curves: one layer. *)
Definition darendeli_layer (s5 : R * R * R * R * R) (T : R) : list R :=
  let '(v, G, sv, o, k) := s5 in
  let gr := gamma_r_pct (PI_at v) o (mean_stress_at sv k / 101325) / 100 in
  let mu := mu_adjust (mu_raw G T o (mean_stress_at sv k)) in
  layer_params dense_strain_pct gr 1 phi5 G T mu.

(** helper_hh_calibration.py:50-164 [hh_param_from_profile] for an array that
    passed the format check: [p] holds its first two columns.  The result lists
    the columns of the (9, n_layer) array. *)
Definition hh_param_from_profile (p : list layer) (Tmax : option (list R)) : res (list (list R)) :=
  let h := removelast (thk_of p) in
  let Vs := removelast (vs_of p) in
  let! _ := match Tmax with
            | Some t => if Nat.eqb (length t) (length Vs) then Ok tt else Err ValueError
            | None => Ok tt end in
  let! rho := calc_rho h Vs in
  let! st := soil_state h Vs rho in
  let! T := strengths Tmax st in
  Ok (zipw darendeli_layer st T).

(** Lines 267-276: expansion of the curves by material number. *)
Fixpoint expand_curves (curves : list (list R)) (mats : list nat) : list (list R) :=
  match mats with
  | [] => []
  | [m] => cols (m * 4 - 4) (m * 4) curves
  | m :: mats' => hstack (cols (m * 4 - 4) (m * 4) curves) (expand_curves curves mats')
  end.
(** Number of columns of the expansion of a matrix with [c] columns. *)
Definition expanded_width (c : nat) (mats : list nat) : nat :=
  fold_right (fun m w => Nat.min (m * 4) c - Nat.min (m * 4 - 4) c + w)%nat 0%nat mats.

Section FromCurves.
(** [mkz.fit_MKZ] of one layer (scipy curve_fit): (gamma_ref, s, beta). *)
Variable fit : list (R * R) -> res (R * R * R).

Definition curves_layer (E : list (list R)) (j : nat) (s5T : R * R * R * R * R * R) : res (list R) :=
  let '(v, G, sv, o, k, T) := s5T in
  let strain := map (fun r => nth (j * 4) r 0) E in
  let GG := map (fun r => nth (j * 4 + 1) r 0) E in
  let! grsb := fit (combine (map (fun g => g / 100) strain) GG) in
  let '(gr, s, beta) := grsb in
  let mu := mu_adjust (mu_raw G T o (mean_stress_at sv k)) in
  Ok (layer_params strain gr beta s G T mu).
Fixpoint curves_layers (E : list (list R)) (j : nat) (l : list (R * R * R * R * R * R)) : res (list (list R)) :=
  match l with
  | [] => Ok []
  | x :: l' => let! p := curves_layer E j x in let! ps := curves_layers E (S j) l' in Ok (p :: ps)
  end.

(** helper_hh_calibration.py:167-308 [hh_param_from_curves] with the array of
    densities and material numbers of the finite layers ([None] for a two-column
    profile: line 247-249). *)
Definition hh_param_from_curves (p : list layer) (extra : option (list R * list nat)) (c : nat) (curves : list (list R))
    (Tmax : option (list R)) : res (list (list R)) :=
  let h := removelast (thk_of p) in
  let Vs := removelast (vs_of p) in
  let! rm := match extra with
             | Some rm => Ok rm
             | None => let! rho := calc_rho h Vs in Ok (rho, seq 1 (length Vs)) end in
  let '(rho, mats) := rm in
  let! _ := match Tmax with
            | Some t => if Nat.eqb (length t) (length Vs) then Ok tt else Err ValueError
            | None => Ok tt end in
  let! st := soil_state h Vs rho in
  let! T := strengths Tmax st in
  assert! Nat.eqb (expanded_width c mats) (length Vs * 4) else AssertionError in
  curves_layers (expand_curves curves mats) 0 (combine st T).
End FromCurves.
