(** Model of the figures of interpolated site factors ([show_interp_plots=True]),
    class_site_factors.py:145-349 and 572-681. *)
From Coq Require Import Reals List Bool ZArith String.
From Verif Require Import Base M_interp M_sitefactors M_float M_text.
Import ListNotations.
Open Scope string_scope.
Open Scope list_scope.
Open Scope R_scope.

(** One line of such a figure (the interpolated ordinates may be NaN), and the figure: its lines in
    drawing order, the labels of the two axes and the three numbers in its title.  Colours, line
    styles, sizes and the text of the title are left out. *)
Record sline := mksline { sl_x : list R; sl_y : list num; sl_label : string }.
Record sfig := mksfig { sf_lines : list sline; sf_xlabel : string; sf_ylabel : string; sf_site : R * R * R }.

(** class_site_factors.py:80-92: the grid of accelerations as doubles. *)
Definition PGA_f64 : list f64 :=
  map (fun n => fdiv (lit n 0) (lit 100 0)) [1; 5; 10; 20; 30; 40; 50; 75; 100; 125; 150]%Z.
(** Line 640: ['%d m/s, %d m, %.2gg' % ref_point], of the grid point with indices [a]. *)
Definition ref_label (a : nat * nat * nat) : string :=
  (dec (nth (fst (fst a)) Vs30_array 0%Z) ++ " m/s, " ++ dec (nth (snd (fst a)) z1_array 0%Z) ++ " m, "
   ++ fmt_g 2 (nth (snd a) PGA_f64 f0) ++ "g")%string.

(** [ax.semilogx(x, y)]: different lengths are refused (ValueError). *)
Definition semilogx (x : list R) (y : list num) (lbl : string) : res sline :=
  if Nat.eqb (List.length x) (List.length y) then Ok (mksline x y lbl) else Err ValueError.

(** class_site_factors.py:572-681 [_plot_interp] without phases: the only caller (line 340) gives none,
    so the two-panel form is left out.  Figures cut short by an exception are left out. *)
Definition plot_interp (points : list (nat * nat * nat)) (site : R * R * R) (x : list R) (ys : list (list R)) (y : list num) (fourier : bool) : res sfig :=
  let! refs := map_res (fun p => semilogx x (map Fin (snd p)) (ref_label (fst p))) (combine points ys) in
  let! mid := semilogx x y "Interpolated" in
  Ok (mksfig (refs ++ [mid]) (if fourier then "Frequency [Hz]" else "Period [sec]") "Amplification or phase shift" site).

Section Figures.
Variable table : what -> string -> option (list (list R)).
Variable axis : what -> string -> option (list R).
Variable griddata : list (R * R * R) -> list R -> R * R * R -> num.

(** class_site_factors.py:265-349 [_get_results] with [show_interp_plots]: also the figures made. *)
Definition get_results_show (w : what) (s : site) (fourier : bool) (m : method) (show : bool) : res (list R * list num * list sfig) :=
  let! c := locate_grids s in
  let! r := query_all table axis w fourier m c in
  let '(pts, ys, x) := r in
  let! v := fin_of (s_Vs30 s) in
  let! z := fin_of (s_z1 s) in
  let! p := fin_of (s_PGA s) in
  let! y := interpolate8 griddata pts ys (v, z, p) in
  let x1 := if fourier then firstn 140 x else x in
  let y1 := if fourier then firstn 140 y else y in
  let ys1 := if fourier then map (firstn 140) ys else ys in
  if show then let! f := plot_interp c (v, z, p) x1 ys1 y1 fourier in Ok (x1, y1, [f]) else Ok (x1, y1, []).

(** class_site_factors.py:145-196 [get_amplification]. *)
Definition get_amplification_show (s : site) (m : method) (fourier show : bool) : res (list (R * num) * list sfig) :=
  match m with
  | nl_hh | eq_hh =>
      let! r := get_results_show Amplif s fourier m show in
      let '(x, y, figs) := r in
      if Nat.eqb (List.length x) (List.length y)
      then Ok (if fourier then combine x y else rev (combine (map (fun t => 1 / t) x) y), figs)
      else Err ValueError
  | _ => Err ValueError
  end.

(** class_site_factors.py:198-232 [get_phase_shift]. *)
Definition get_phase_shift_show (s : site) (m : method) (show : bool) : res (list (R * num) * list sfig) :=
  match m with
  | eq_hh =>
      let! r := get_results_show Phase s true m show in
      let '(x, y, figs) := r in
      if Nat.eqb (List.length x) (List.length y) then Ok (combine x y, figs) else Err ValueError
  | _ => Err ValueError
  end.

(** class_site_factors.py:234-263 [get_both_amplf_and_phase]. *)
Definition get_both_show (s : site) (m : method) (show : bool) : res (list (R * num) * list (R * num) * list sfig) :=
  let! a := get_amplification_show s m true show in
  let! p := get_phase_shift_show s eq_hh show in
  Ok (fst a, fst p, snd a ++ snd p).
End Figures.
