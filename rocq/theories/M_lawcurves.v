(** Model of the curves computed from soil parameters (class_parameters.py:123-254 and 424-486):
    stresses, modulus reduction, damping, the figure of both, and the curve objects of several
    layers.  Strains are given in percent as 1-D arrays.  The base class without a stress function
    (135-137, 163-165, 188-190) is not modelled. *)
From Coq Require Import Reals List Bool ZArith String Lia Lra.
From Verif Require Import Base M_generic M_interp M_soil M_params M_fits M_curvemat M_figures.
Import ListNotations.
Open Scope string_scope.
Open Scope list_scope.
Open Scope R_scope.

(** The two subclasses, class_parameters.py:277-294 and 325-332. *)
Inductive law := LMKZ | LHH.
Definition law_keys (m : law) : list string := match m with LMKZ => MKZ_keys | LHH => HH_keys end.
(** The value of a key that is there. *)
Definition at_key (d : dict) (k : string) : R := match dget k d with Some v => v | None => 0 end.

(** [self.func_stress(strain, **self.data)], helper_mkz_model.py:10-57 and helper_hh_model.py:107-159:
    the arguments are keyword-only, so the dictionary must hold their names and no others (TypeError). *)
Definition func_stress (m : law) (d : dict) (strain : list R) : res (list num) :=
  assert! same_keys d (law_keys m) else TypeError in
  match m with
  | LMKZ => Ok (map (tau_MKZ (at_key d "gamma_ref") (at_key d "beta") (at_key d "s") (at_key d "Gmax")) strain)
  | LHH => tau_HH (at_key d "gamma_t") (at_key d "a") (at_key d "gamma_ref") (at_key d "beta") (at_key d "s")
             (at_key d "Gmax") (at_key d "mu") (at_key d "Tmax") (at_key d "d") strain
  end.

(** class_parameters.py:123-145 [get_stress]. *)
Definition unit1 (strain_pct : list R) : list R := map (fun x => x / 100) strain_pct.
Definition get_stress (m : law) (d : dict) (strain_pct : list R) : res (list num) :=
  func_stress m d (unit1 strain_pct).

(** class_parameters.py:147-171 [get_GGmax], with helper_site_response.py:2279-2293; a stress that is not finite gives NaN
    here.  Strains after the first and [Gmax] are taken to be non-zero. *)
Definition get_GGmax (m : law) (d : dict) (strain_pct : list R) : res (list num) :=
  let! tau := get_stress m d strain_pct in
  let strain := unit1 strain_pct in
  let! e0 := get strain 0 in
  assert! negb (Reqb e0 0) else ValueError in
  Ok (map (fun te => match fst te with Fin t => Fin (t / snd te / at_key d "Gmax") | _ => NaN end) (combine tau strain)).

(** class_parameters.py:173-198 [get_damping], with helper_site_response.py:2170-2250.  From the first stress that
    is not finite on, the damping is NaN (an infinite stress, possible for a negative beta only, is treated like NaN). *)
Fixpoint fin_prefix (l : list num) : list R :=
  match l with Fin r :: l' => r :: fin_prefix l' | _ => [] end.
Definition get_damping (m : law) (d : dict) (strain_pct : list R) : res (list num) :=
  let strain := unit1 strain_pct in
  let! tau := func_stress m d strain in
  let! e0 := get strain 0 in
  assert! negb (Reqb e0 0) else ValueError in
  match fin_prefix tau with
  | [] => Ok (map (fun _ => NaN) tau)
  | p =>
      let! ds := calc_damping (firstn (List.length p) strain) p (at_key d "Gmax") in
      Ok (map (fun x => Fin (x * 100)) ds ++ repeat NaN (List.length tau - List.length p))
  end.

(** class_parameters.py:200-254 [plot_curves]: the curves first, then a new figure with two axes.  The
    options for the lines are accepted and not used.  matplotlib leaves points out that are not numbers: here
    only curves of numbers are drawn, others are drawn as empty lines. *)
Definition plot_strain : list R := logspace (-4) 1 50.
Definition numbers (l : list num) : list R := match fins l with Some r => r | None => [] end.
Definition finite_x (x : list R) (l : list num) : list R := match fins l with Some _ => x | None => [] end.
Definition plot_curves (m : law) (d : dict) : draws (nat * (nat * nat)) :=
  do gg <- lift (get_GGmax m d plot_strain);
  do xi <- lift (get_damping m d plot_strain);
  do f <- new_figure;
  do a <- add_subplot f;
  do _ <- draw a (finite_x plot_strain gg) (numbers gg) None;
  do _ <- set_ylabel a "G/Gmax";
  do b <- add_subplot f;
  do _ <- draw b (finite_x plot_strain xi) (numbers xi) None;
  do _ <- set_ylabel b "Damping [%]";
  done (f, (a, b)).

(** class_parameters.py:455-466: the matrix of all layers, four columns for each; [None] before the first layer. *)
Definition layer_block (strain_pct : list R) (gg xi : list num) : list (list num) :=
  map (fun q => [Fin (fst q); fst (snd q); Fin (fst q); snd (snd q)]) (combine strain_pct (combine gg xi)).
Fixpoint curves_loop (m : law) (strain_pct : list R) (curves : option (list (list num))) (layers : list dict)
    : res (option (list (list num))) :=
  match layers with
  | [] => Ok curves
  | d :: layers' =>
      let! gg := get_GGmax m d strain_pct in
      let! xi := get_damping m d strain_pct in
      let block := layer_block strain_pct gg xi in
      curves_loop m strain_pct (Some (match curves with None => block | Some c => hstack c block end)) layers'
  end.

(** class_parameters.py:468-486: which curves are asked for. *)
Inductive wanted := Only (k : kind) | Both.
Definition as_obj (n : nat) (curves : option (list (list num))) : pyobj :=
  match curves with Some rows => PArr true (A2 (4 * n) rows) | None => POther end.
Definition construct_curves (m : law) (layers : list dict) (strain_pct : list R) (w : wanted)
    : res (option (list vcurve) * option (list vcurve)) :=
  let! curves := curves_loop m strain_pct None layers in
  let o := as_obj (List.length layers) curves in
  match w with
  | Only k =>
      let! p := extract_from_curve_format o false in
      let! cs := curves_init k (FromList (map (fun rows => EArr (PArr true (A2 2 rows))) (pick k p))) in
      Ok (match k with KG => (Some cs, None) | KD => (None, Some cs) end)
  | Both =>
      let! b := both_init NoPair (match curves with Some _ => DataArray o | None => NoData end) in
      let! p := both_objects b in
      Ok (Some (fst p), Some (snd p))
  end.
