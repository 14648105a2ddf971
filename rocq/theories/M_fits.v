(** Model of fitting: the MKZ fit of modulus curves (helper_mkz_model.py:306-444
    [fit_MKZ]), the optimiser call (helper_site_response.py:2601-2811
    [ga_optimization]), the misfits it minimises (helper_mkz_model.py:180-219,
    helper_hh_model.py:290-342), and the damping fits of class_curves.py with their
    options and output files (370-531, 987-1264). *)
From Coq Require Import Reals List Bool ZArith String Ascii Lia Lra.
From Verif Require Import Base M_generic M_profile M_vs_profile M_motion M_interp M_soil M_params M_curves M_dampcal M_files.
Import ListNotations.
Open Scope R_scope.
Open Scope string_scope.
Open Scope list_scope.

(** ** [fit_MKZ] *)
Section CurveFit.
(** [scipy.optimize.curve_fit] of lines 356-358 and 376-382 (the law, the starting
    point and the bounds are fixed) on the points (strain, G/Gmax): beta, gamma_ref
    and s, or an exception. *)
Variable curve_fit : list (R * R) -> res (R * R * R).

(** helper_mkz_model.py:349-352: the points of material [k], strain in unit 1. *)
Definition mkz_points (k : nat) (rows : list (list R)) : list (R * R) :=
  map (fun r => (nth (4 * k) r 0 / 100, nth (4 * k + 1) r 0)) rows.

(** Lines 366-387: row [j] of [param] is gamma_ref, 0, s, beta. *)
Definition mkz_row (pts : list (R * R)) : res (list R) :=
  let! p := curve_fit pts in
  Ok [snd (fst p); 0; snd p; fst (fst p)].

(** Line 354. *)
Definition fit_strain : list R := geomspace (1 / 1000000) (1 / 10) 109.

(** Lines 390-400: the fitted curve of one row; a stress that is not finite makes
    its ratio not finite (NaN here). *)
Definition mkz_ratio_at (p : list R) (g : R) : num :=
  match tau_MKZ (nth 0 p 0) (nth 3 p 0) (nth 2 p 0) 1 g with
  | Fin t => Fin (t / g / 1)
  | _ => NaN
  end.

(** Lines 438-442: row of the fitted curves at one strain; columns that belong to
    no material stay zero (341). *)
Definition fitted_row (c : nat) (params : list (list R)) (g : R) : list num :=
  List.concat (map (fun p => [Fin (g * 100); mkz_ratio_at p g; Fin (g * 100); Fin (0 * 100)]) params) ++
  repeat (Fin 0) (c - 4 * List.length params).

(** The whole function: [Some (c, rows)] is a 2-D array with [c] columns, [None]
    anything else (337). *)
Definition fit_MKZ (curves : option (nat * list (list R))) : res (list (list R) * list (list num)) :=
  match curves with
  | None => Err TypeError
  | Some (c, rows) =>
      let! params := map_res (fun k => mkz_row (mkz_points k rows)) (seq 0 (c / 4)) in
      Ok (params, map (fitted_row c params) fit_strain)
  end.
End CurveFit.

(** ** Misfits *)
Fixpoint fins (l : list num) : option (list R) :=
  match l with
  | [] => Some []
  | Fin r :: l' => match fins l' with Some rs => Some (r :: rs) | None => None end
  | _ :: _ => None
  end.

(** helper_mkz_model.py:213-217, helper_hh_model.py:323-340: damping of the stresses
    against the data; stresses that are not finite make the error NaN. *)
Definition misfit_of (data : list (R * R)) (stress : list num) (Gmax : R) : res num :=
  match fins stress with
  | Some ts => let! ds := calc_damping (map fst data) ts Gmax in mean_absolute_error (map snd data) ds
  | None => let! e0 := get (map fst data) 0 in
            if Reqb e0 0 then Err ValueError else Ok NaN
  end.

(** helper_mkz_model.py:180-219 [damping_misfit]. *)
Definition mkz_misfit (data : list (R * R)) (p : list R) : res num :=
  match p with
  | [gr; s; b] => misfit_of data (map (tau_MKZ (Rpower 10 gr) (Rpower 10 b) (Rpower 10 s) 1) (map fst data)) 1
  | _ => Err ValueError
  end.

(** helper_hh_model.py:290-342 [_damping_misfit]. *)
Definition hh_misfit (data : list (R * R)) (p : list R) : res num :=
  match p with
  | [gt; a; gr; b; s; G; mu; T; d] =>
      let! ts := tau_HH (Rpower 10 gt) (Rpower 10 a) (Rpower 10 gr) (Rpower 10 b) (Rpower 10 s)
                   (Rpower 10 G) (Rpower 10 mu) (Rpower 10 T) (Rpower 10 d) (map fst data) in
      misfit_of data ts (Rpower 10 G)
  | _ => Err ValueError
  end.

(** ** The optimiser call *)
(** What the user chooses (class_curves.py:370-383, 987-1006). *)
Record options := mkoptions {
  o_scipy : bool; o_pop : Z; o_gen : Z; o_lo : R; o_hi : R; o_eta : R; o_seed : Z;
  o_parallel : bool; o_cores : option Z }.

(** What [differential_evolution] is given (helper_site_response.py:2714-2724). *)
Record de_call := mkde {
  de_bounds : list (R * R); de_recombination : R; de_popsize : Z; de_seed : Z; de_maxiter : Z; de_workers : Z }.

(** What DEAP is given (2750-2806). *)
Record ea_call := mkea {
  ea_low : R; ea_up : R; ea_size : nat; ea_eta : R; ea_indpb : R; ea_tournsize : Z; ea_seed : Z;
  ea_pop : Z; ea_ngen : Z; ea_cxpb : R; ea_mutpb : R }.

Definition loss := list R -> res num.

Section Optimisers.
(** The two optimisers: unspecified functions of what they are given; one that
    raises is not modelled. *)
Variable de : de_call -> loss -> list R.
Variable ea : ea_call -> loss -> list R.

(** helper_site_response.py:2601-2811 [ga_optimization]; it is called with 3 or 9
    parameters.  Warnings and printing are not modelled. *)
Definition ga_optimization (n : nat) (f : loss) (o : options) (cross mut : R) : list R :=
  if o_scipy o then
    let workers := if o_parallel o && match o_cores o with None => true | _ => false end then (-1)%Z else 1%Z in
    de (mkde (repeat (o_lo o, o_hi o) n) cross (Z.max 1 (o_pop o / Z.of_nat n)) (o_seed o) (o_gen o) workers) f
  else
    ea (mkea (o_lo o) (o_hi o) n (o_eta o) (1 / INR n) 10 (o_seed o) (o_pop o) (o_gen o) cross mut) f.

(** helper_hh_model.py:250-273 and helper_mkz_model.py:145-167. *)
Definition hh_opt (o : options) (data : list (R * R)) : list R := ga_optimization 9 (hh_misfit data) o (8/10) (8/10).
Definition mkz_opt (o : options) (data : list (R * R)) : list R := ga_optimization 3 (mkz_misfit data) o (8/10) (8/10).

(** class_curves.py:370-448 [get_HH_x_param] and 450-529 [get_H4_x_param]. *)
Definition get_HH_x (o : options) (sh : sheap) (c : curve) : sheap * res dict :=
  let '(sh1, r) := fit_HH (hh_opt o) sh (c_raw c) in (sh1, let! d := r in param_init HH_keys (Some d)).
Definition get_H4_x (o : options) (sh : sheap) (c : curve) : sheap * res dict :=
  let '(sh1, r) := fit_H4 (mkz_opt o) sh (c_raw c) in (sh1, let! d := r in param_init MKZ_keys (Some d)).

(** helper_site_response.py:2558-2598 [_fit_single_layer_loop]: the options one layer
    is fitted with. *)
Definition loop_options (o : options) : options :=
  mkoptions (o_scipy o) (o_pop o) (o_gen o) (o_lo o) (o_hi o) (o_eta o) (o_seed o) false None.

(** ** Output files *)
(** [os.path.split(name)[1]]. *)
Definition base_name (s : string) : string := last (split_slash s) "".

(** [os.path.splitext(name)[0]] of a base name: without the last dot and what follows it,
    unless only dots precede it. *)
Fixpoint all_dots (s : string) : bool :=
  match s with "" => true | String c s' => Ascii.eqb c "." && all_dots s' end.
Fixpoint has_dot (s : string) : bool :=
  match s with "" => false | String c s' => Ascii.eqb c "." || has_dot s' end.
Fixpoint cut_dot (s : string) : string :=
  match s with
  | "" => ""
  | String c s' => if Ascii.eqb c "." && negb (has_dot s') then "" else String c (cut_dot s')
  end.
Definition stem (s : string) : string := if all_dots (cut_dot s) then s else cut_dot s.

(** ['curve_' in s] and [s[6:]]. *)
Fixpoint contains (t s : string) : bool :=
  prefix t s || match s with "" => false | String _ s' => contains t s' end.
Fixpoint drop (n : nat) (s : string) : string :=
  match n, s with S n', String _ s' => drop n' s' | _, _ => s end.

(** class_curves.py:1223-1264 [_produce_output_file_name]. *)
Definition output_file_name (filename : option string) (pre ext : string) : res string :=
  match filename with
  | None => Err ValueError
  | Some f =>
      let b := stem (base_name f) in
      let site := if contains "curve_" b then drop 6 b else b in
      Ok (pre ++ "_x_" ++ site ++ "." ++ ext)%string
  end.

(** What the user asks to be saved (class_curves.py:997-1006). *)
Record saving := mksaving {
  v_show : bool; v_fig : bool; v_fig_name : option string;
  v_txt : bool; v_txt_name : option string; v_sep : option string }.
Inductive written := WFig (name : string) | WTxt (name sep : string) (c : nat) (rows : list (list R)).

Section Files.
(** How ['%.6g'] prints a number. *)
Variable fmt : R -> R.

(** class_curves.py:1068-1077 (1186-1195): the names, decided before the fit. *)
Definition fig_name (filename : option string) (pre : string) (v : saving) : res (option string) :=
  match v_fig v, v_fig_name v with
  | true, None => let! n := output_file_name filename pre "png" in Ok (Some n)
  | _, n => Ok n
  end.
Definition txt_name (filename : option string) (pre : string) (v : saving) : res (option string) :=
  match v_txt v, v_txt_name v with
  | true, None => let! n := output_file_name filename pre "txt" in Ok (Some n)
  | _, n => Ok n
  end.

(** helper_site_response.py:2522-2553: the figure (2538-2539) and the text file; the
    parameters of a layer are a column. *)
Definition files (m : model) (self_sep : string) (v : saving) (fign txtn : option string) (ps : list dict) : res (list written) :=
  let figs := match fign with Some n => if v_show v && v_fig v then [WFig n] else [] | None => [] end in
  if v_txt v then
    let! cm := save_txt m fmt ps in
    assert! negb (Nat.eqb (List.length ps) 0) else ValueError in
    match txtn with
    | Some n => Ok (figs ++ [WTxt n (match v_sep v with Some s => s | None => self_sep end) (fst cm) (snd cm)])
    | None => Ok figs
    end
  else Ok figs.

(** class_curves.py:987-1103 [get_all_HH_x_params] and 1105-1221
    [get_all_H4_x_params] (helper_site_response.py:2473-2555); a pool needs at least
    one process. Errors while drawing or writing are not modelled. *)
Definition get_all (m : model) (pre : string) (fit : fitter) (o : options) (filename : option string) (self_sep : string)
    (v : saving) (sh : sheap) (cs : list curve) : sheap * res (list dict * list written) :=
  match (let! f := fig_name filename pre v in let! t := txt_name filename pre v in Ok (f, t)) with
  | Err e => (sh, Err e)
  | Ok (f, t) =>
      if o_parallel o && match o_cores o with Some n => Z.ltb n 1 | None => false end then (sh, Err ValueError)
      else
        let '(sh1, r) := fit_all fit (o_parallel o) sh (map c_raw cs) in
        (sh1, let! ps := r in
              let! w := files m self_sep v f t ps in
              let! ps' := map_res (fun d => param_init (mkeys m) (Some d)) ps in
              Ok (ps', w))
  end.
Definition get_all_HH_x (o : options) := get_all HH "HH" (fit_HH (hh_opt (loop_options o))) o.
Definition get_all_H4_x (o : options) := get_all MKZ "H4" (fit_H4 (mkz_opt (loop_options o))) o.
End Files.
End Optimisers.
