(** Model of the figures: what is drawn, on which axes of which figure, and what has been
    drawn when a function fails.  Colours, line styles, tick marks, grids, figure sizes and
    resolutions are left out; so are the windows themselves. *)
From Coq Require Import Reals List Bool ZArith Lia Lra String.
From Coquelicot Require Import Complex.
From Coq Require Import List.
From Verif Require Import Base M_generic M_profile M_vs_profile M_motion M_interp M_dft M_soil M_curves M_signal M_amplify M_freqspec M_svm.
Import ListNotations.
Open Scope string_scope.
Open Scope list_scope.
Open Scope R_scope.

(** ** The canvas: matplotlib.pyplot as far as it is used *)

(** One line of a plot: abscissae, ordinates, label. *)
Record line := mkline { l_x : list R; l_y : list R; l_label : option string }.

(** One set of axes: the figure it was made in, its lines in drawing order, the texts (position
    and the number shown), title, label of the vertical axis, limits, and whether it is still
    in its figure. *)
Record axes := mkaxes {
  ax_fig : nat; ax_lines : list line; ax_texts : list (R * R * R);
  ax_title : option string; ax_ylabel : option string;
  ax_xlim : option (R * R); ax_ylim : option (R * R); ax_shown : bool }.

(** The figures are numbered from 0 in the order of their creation, the axes likewise. *)
Record canvas := mkcanvas { cv_figs : nat; cv_axes : list axes }.
Definition blank : canvas := mkcanvas 0 [].

(** Drawing code: it changes the canvas, and returns a value or raises. *)
Definition draws (A : Type) := canvas -> canvas * res A.
Definition done {A} (a : A) : draws A := fun c => (c, Ok a).
Definition raise {A} (e : exn) : draws A := fun c => (c, Err e).
Definition lift {A} (r : res A) : draws A := fun c => (c, r).
Definition and_then {A B} (m : draws A) (k : A -> draws B) : draws B := fun c =>
  match m c with (c1, Ok a) => k a c1 | (c1, Err e) => (c1, Err e) end.
Notation "'do' x '<-' m ';' k" := (and_then m (fun x => k)) (at level 62, x pattern, m at next level, right associativity).

(** [plt.figure()] *)
Definition new_figure : draws nat := fun c => (mkcanvas (S (cv_figs c)) (cv_axes c), Ok (cv_figs c)).
(** [fig.add_subplot(...)], [plt.subplot(...)]: new axes in figure [f]; positions are left out. *)
Definition empty_axes (f : nat) : axes := mkaxes f [] [] None None None None true.
Definition add_subplot (f : nat) : draws nat := fun c =>
  (mkcanvas (cv_figs c) (cv_axes c ++ [empty_axes f]), Ok (List.length (cv_axes c))).
(** Change the axes number [a]. *)
Fixpoint change (a : nat) (g : axes -> axes) (l : list axes) : list axes :=
  match l, a with
  | [], _ => []
  | x :: l', O => g x :: l'
  | x :: l', S a' => x :: change a' g l'
  end.
Definition on (a : nat) (g : axes -> axes) : draws unit := fun c =>
  (mkcanvas (cv_figs c) (change a g (cv_axes c)), Ok tt).
(** [ax.plot(x, y, label=...)]: x and y of different lengths are refused by matplotlib (ValueError). *)
Definition draw (a : nat) (x y : list R) (lbl : option string) : draws unit :=
  if Nat.eqb (List.length x) (List.length y)
  then on a (fun s => mkaxes (ax_fig s) (ax_lines s ++ [mkline x y lbl]) (ax_texts s) (ax_title s) (ax_ylabel s)
                        (ax_xlim s) (ax_ylim s) (ax_shown s))
  else raise ValueError.
Definition put_text (a : nat) (x y v : R) : draws unit :=
  on a (fun s => mkaxes (ax_fig s) (ax_lines s) (ax_texts s ++ [(x, y, v)]) (ax_title s) (ax_ylabel s) (ax_xlim s) (ax_ylim s) (ax_shown s)).
Definition set_title (a : nat) (t : string) : draws unit :=
  on a (fun s => mkaxes (ax_fig s) (ax_lines s) (ax_texts s) (Some t) (ax_ylabel s) (ax_xlim s) (ax_ylim s) (ax_shown s)).
Definition set_ylabel (a : nat) (t : string) : draws unit :=
  on a (fun s => mkaxes (ax_fig s) (ax_lines s) (ax_texts s) (ax_title s) (Some t) (ax_xlim s) (ax_ylim s) (ax_shown s)).
Definition set_xlim (a : nat) (lo hi : R) : draws unit :=
  on a (fun s => mkaxes (ax_fig s) (ax_lines s) (ax_texts s) (ax_title s) (ax_ylabel s) (Some (lo, hi)) (ax_ylim s) (ax_shown s)).
Definition set_ylim (a : nat) (lo hi : R) : draws unit :=
  on a (fun s => mkaxes (ax_fig s) (ax_lines s) (ax_texts s) (ax_title s) (ax_ylabel s) (ax_xlim s) (Some (lo, hi)) (ax_shown s)).
(** [ax.remove()] *)
Definition remove (a : nat) : draws unit :=
  on a (fun s => mkaxes (ax_fig s) (ax_lines s) (ax_texts s) (ax_title s) (ax_ylabel s) (ax_xlim s) (ax_ylim s) false).
(** [if title: ax.set_title(title)]: no title and the empty title are the same. *)
Definition truthy (s : option string) : bool := match s with None => false | Some t => negb (String.eqb t "") end.
Definition title_if (a : nat) (t : option string) : draws unit :=
  match t with Some s => if String.eqb s "" then done tt else set_title a s | None => done tt end.
Definition ylabel_if (a : nat) (t : option string) : draws unit :=
  match t with Some s => if String.eqb s "" then done tt else set_ylabel a s | None => done tt end.

(** ** _process_fig_ax_objects, helper_generic.py:90-149
    No caller in the package gives a projection, so line 145 is left out; [fig.number] exists. *)
Definition process_fig_ax (fig ax : option nat) (bypass : bool) : draws (nat * option nat) :=
  do f <- match fig with None => new_figure | Some f => done f end;
  match ax with
  | None => if bypass then done (f, None) else do a <- add_subplot f; done (f, Some a)
  | Some a => done (f, Some a)
  end.
(** The same for the callers that do not set [bypass_ax_creation]. *)
Definition fig_ax (fig ax : option nat) : draws (nat * nat) :=
  do p <- process_fig_ax fig ax false;
  match snd p with Some a => done (fst p, a) | None => raise AttributeError end.

(** ** plot_motion, helper_site_response.py:264-372 *)
(** [np.argmax]: the first index of the largest value. *)
Fixpoint argmax_from (best : R) (ibest i : nat) (l : list R) : nat :=
  match l with
  | [] => ibest
  | x :: l' => if Rltb best x then argmax_from x i (S i) l' else argmax_from best ibest (S i) l'
  end.
Definition argmax (l : list R) : nat := match l with [] => 0%nat | x :: l' => argmax_from x 0 1 l' end.

(** The [accel] argument: a file name with what [np.loadtxt] makes of it, a two-column array,
    or something else.  Two-column arrays of finite numbers pass line 323. *)
Inductive msource := MFile (name : string) (content : res signal) | MArray (s : signal) | MOther.

(** Line 350: where the text goes, [int(np.min((pga_index + np.round(n / 40.0), n)))]. *)
Definition text_index (i n : nat) : nat := Nat.min (i + Z.to_nat (rint (INR n / 40))) n.

(** Lines 312-321: the title and the data. *)
Definition titled (src : msource) (title : option string) : res (string * signal) :=
  match src with
  | MFile nm c => let! s := c in Ok (match title with Some t => if String.eqb t "" then nm else t | None => nm end, s)
  | MArray s => Ok (match title with Some t => t | None => "Ground motion" end, s)
  | MOther => Err TypeError
  end.

Definition plot_motion (src : msource) (unit : string) (fig ax : option nat) (title : option string)
    : draws (nat * (nat * nat * nat)) :=
  do ts <- lift (titled src title);
  let s := snd ts in
  let t := times s in
  let a := vals s in
  do pga <- lift (max_abs a);
  let i := argmax (map Rabs a) in
  do vu <- lift (num_int s);
  do fa <- fig_ax fig ax;
  do _ <- remove (snd fa);
  if negb (String.eqb unit "m" || String.eqb unit "cm") then raise ValueError else
  do lo <- lift (rmin1 t);
  do hi <- lift (rmax1 t);
  do ax1 <- add_subplot (fst fa);
  do _ <- draw ax1 t a None;
  do ti <- lift (get t i);
  do ai <- lift (get a i);
  do _ <- draw ax1 [ti] [ai] None;
  do t_ <- lift (get t (text_index i (List.length t)));
  do _ <- put_text ax1 t_ ai pga;
  do _ <- set_xlim ax1 lo hi;
  do _ <- set_title ax1 (fst ts);
  do ax2 <- add_subplot (fst fa);
  do _ <- draw ax2 t (vals (fst vu)) None;
  do _ <- set_xlim ax2 lo hi;
  do ax3 <- add_subplot (fst fa);
  do _ <- draw ax3 t (vals (snd vu)) None;
  do _ <- set_xlim ax3 lo hi;
  done (fst fa, (ax1, ax2, ax3)).

(** class_ground_motion.py:327-388 [Ground_Motion.plot]; [file] is the file the motion was read from. *)
Definition gm_plot (h : sheap) (m : motion) (file : option string) (show_as_unit : string) (fig ax : option nat)
    : draws (nat * (nat * nat * nat)) :=
  let title := match file with Some f => f | None => "" end in
  do s <- (if String.eqb show_as_unit "m" then done (sig_at h (m_accel m))
           else if String.eqb show_as_unit "cm" then lift (unit_convert h m U_cmss)
           else if String.eqb show_as_unit "g" then lift (unit_convert h m U_g)
           else raise ValueError);
  plot_motion (MArray s) show_as_unit fig ax (Some title).

(** class_ground_motion.py:230-233 [summary]; the printed text is left out. *)
Definition gm_summary (h : sheap) (m : motion) (file : option string) : draws unit :=
  do _ <- gm_plot h m file "m" None None; done tt.

(** ** plot_Vs_profile, helper_site_response.py:946-1039
    [checked] is the outcome of the check of lines 1004-1008, which comes after the figure. *)
Definition plot_Vs_profile (checked : res (list layer)) (fig ax : option nat) (title label : option string) (max_depth : option R)
    : draws (nat * nat) :=
  do fa <- fig_ax fig ax;
  do p <- lift checked;
  let thk := thk_of p in
  let vs := vs_of p in
  let auto := let! h0 := get thk 0 in Ok (rsum thk + h0) in
  do zmax <- lift (match max_depth with None => auto | Some d => if Reqb d 0 then auto else Ok d end);
  do xy <- lift (gen_profile_plot_array thk vs zmax);
  do _ <- draw (snd fa) (fst xy) (snd xy) label;
  do top <- lift (rmax1 vs);
  do _ <- set_xlim (snd fa) 0 (top * (11 / 10));
  do _ <- set_ylim (snd fa) zmax 0;
  do _ <- title_if (snd fa) title;
  done fa.

Definition profile_of (h : heap) (o : vsobj) : list layer := layers_of (o_rows h o).

(** class_Vs_profile.py:219-271 [Vs_Profile.plot]; [kw] is the keyword argument [title] if there is one,
    [file] the file the profile was read from.  Line 263 gives [title] twice when both are there. *)
Definition vs_plot (h : heap) (o : vsobj) (file : option string) (kw : option (option string)) (fig ax : option nat)
    (label : option string) (max_depth : option R) : draws (nat * nat) :=
  do title <- (if truthy file then match kw with Some _ => raise TypeError | None => done file end
               else match kw with Some t => done t | None => done None end);
  plot_Vs_profile (Ok (profile_of h o)) fig ax title label max_depth.

(** class_Vs_profile.py:590-611 [_plot_queried_Vs] for arrays: the queried points over the profile. *)
Definition plot_queried (h : heap) (o : vsobj) (file : option string) (vs depth : list R) : draws unit :=
  do fa <- vs_plot h o file None None None None None;
  do _ <- draw (snd fa) vs depth None;
  do zs <- lift (match profile_of h o with l :: _ => Ok (rsum (thk_of (profile_of h o)) + fst l) | [] => Err IndexError end);
  do deepest <- lift (rmax1 depth);
  if Rleb (Rmax zs 0) deepest then set_ylim (snd fa) deepest (Rmin zs 0) else done tt.

(** class_Vs_profile.py:671-674 [summary]; the printed text is left out. *)
Definition vs_summary (h : heap) (o : vsobj) (file : option string) : draws unit :=
  do _ <- vs_plot h o file None None None None None; done tt.

(** class_svm.py:284-332 [SVM.plot]; [text] is the formatted title of line 320, [kw] as above. *)
Definition svm_plot (h : heap) (s : svm) (text : string) (kw : option (option string)) (fig ax : option nat) : draws (nat * nat) :=
  match kw with
  | Some _ => raise TypeError
  | None => plot_Vs_profile (Ok (base_layers h s)) fig ax (Some text) None None
  end.

(** class_svm.py:438-466 [_plot_additional_profile]. *)
Definition plot_additional (h : heap) (s : svm) (text : string) (p : list layer) (label : string) : draws unit :=
  do fa <- plot_Vs_profile (Ok (base_layers h s)) None None None (Some "Smooth") None;
  do _ <- plot_Vs_profile (Ok p) (Some (fst fa)) (Some (snd fa)) None (Some label) None;
  do _ <- set_title (snd fa) text;
  do top <- lift (rmax1 (vs_of p ++ [1000]));
  set_xlim (snd fa) 0 (top * (11 / 10)).

(** ** Curves *)
(** class_curves.py:119-184 [Curve.plot]; [label] stands for the keyword arguments passed on to matplotlib. *)
Definition curve_plot (h : sheap) (c : curve) (interpolated : bool) (fig ax : option nat) (title ylabel label : option string)
    : draws (nat * nat) :=
  do fa <- fig_ax fig ax;
  do _ <- (if interpolated then draw (snd fa) (strain h c) (values h c) label
           else draw (snd fa) (times (sig_at h (c_raw c))) (vals (sig_at h (c_raw c))) label);
  do _ <- ylabel_if (snd fa) ylabel;
  do _ <- title_if (snd fa) title;
  done fa.

(** class_curves.py:726-795 [Multiple_Curves.plot]: lines 783-793 do not pass the keyword arguments on. *)
Fixpoint curves_loop (h : sheap) (cs : list curve) (interpolated : bool) (f a : nat) (title ylabel : option string) : draws unit :=
  match cs with
  | [] => done tt
  | c :: cs' => do _ <- curve_plot h c interpolated (Some f) (Some a) title ylabel None; curves_loop h cs' interpolated f a title ylabel
  end.
Definition curves_plot (h : sheap) (cs : list curve) (interpolated : bool) (fig ax : option nat) (title ylabel label : option string)
    : draws (nat * nat) :=
  do fa <- match fig, ax with
           | None, _ => fig_ax None None
           | Some f, None => fig_ax (Some f) None
           | Some f, Some a => done (f, a)
           end;
  do _ <- curves_loop h cs interpolated (fst fa) (snd fa) title ylabel;
  done fa.

(** class_curves.py:865-921 and 1334-1390 [Multiple_Damping_Curves.plot], [Multiple_GGmax_Curves.plot]:
    the same with another default for [ylabel]. *)
Definition damping_curves_plot h cs interpolated fig ax title (ylabel : option (option string)) label :=
  curves_plot h cs interpolated fig ax title (match ylabel with Some y => y | None => Some "Damping [%]" end) label.
Definition ggmax_curves_plot h cs interpolated fig ax title (ylabel : option (option string)) label :=
  curves_plot h cs interpolated fig ax title (match ylabel with Some y => y | None => Some "G/Gmax" end) label.

(** class_curves.py:1626-1630 [Multiple_GGmax_Damping_Curves.plot], the two lists of curves being those of
    [get_MGC_MDC_objects]. *)
Definition both_plot (h : sheap) (gs ds : list curve) : draws unit :=
  do _ <- ggmax_curves_plot h gs true None None None (Some (Some "$G/G_{\max}$")) None;
  do _ <- damping_curves_plot h ds true None None None (Some (Some "Damping [%]")) None;
  done tt.

(** ** Spectra: class_frequency_spectrum.py:159-221 [Frequency_Spectrum.plot]
    Matplotlib drops the imaginary parts of complex ordinates. *)
Definition fs_plot (s : fspec) (file : option string) (plot_abs : bool) (fig ax : option nat) (label : option string)
    : draws (nat * nat) :=
  do fa <- fig_ax fig ax;
  do _ <- draw (snd fa) (fs_freq s) (if plot_abs then amplitude s else map Re (fs_spec s)) label;
  do _ <- set_ylabel (snd fa) "Amplitude or phase";
  do _ <- title_if (snd fa) file;
  done fa.
