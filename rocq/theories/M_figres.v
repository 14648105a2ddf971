(** Model of the figures of simulation results, of the comparison of two motions and of
    damping fits, and of the image files written by [Simulation_Results.plot]. *)
From Coq Require Import Reals List Bool ZArith Lia Lra String.
From Coquelicot Require Import Complex.
From Coq Require Import List.
From Verif Require Import Base M_generic M_profile M_vs_profile M_motion M_interp M_dft M_soil M_params M_curves M_signal M_linear M_amplify M_freqspec M_svm M_simlin M_results M_figures.
Import ListNotations.
Open Scope string_scope.
Open Scope list_scope.
Open Scope R_scope.

(** ** _plot_site_amp, helper_site_response.py:1760-1922 *)

(** [np.allclose(t_in, t_out, atol=1e-4)] of two arrays: arrays of one element are broadcast, other
    lengths have to agree (ValueError). *)
Definition close4 (a b : R) : bool := Rleb (Rabs (a - b)) (1 / 10000 + 1 / 100000 * Rabs b).
Definition times_agree (t1 t2 : list R) : res bool :=
  match t1, t2 with
  | [x], _ => Ok (forallb (close4 x) t2)
  | _, [y] => Ok (forallb (fun x => close4 x y) t1)
  | _, _ => if Nat.eqb (List.length t1) (List.length t2)
            then Ok (forallb (fun p => close4 (fst p) (snd p)) (combine t1 t2)) else Err ValueError
  end.

(** A missing ordinate array is refused by matplotlib (ValueError). *)
Definition draw_opt (a : nat) (x : list R) (y : option (list R)) (lbl : option string) : draws unit :=
  match y with Some l => draw a x l lbl | None => raise ValueError end.

(** Lines 1862-1886: the two time histories; the one with the larger peak is drawn first.
    Line 1839 (and the unpacking of two-column arrays) is done by the caller of this part. *)
Definition plot_histories (a : nat) (t x_in x_out : list R) (lin lout : string) : draws unit :=
  do mo <- lift (max_abs x_out);
  do mi <- lift (max_abs x_in);
  do _ <- (if Rleb mi mo
           then do _ <- draw a t x_out (Some lout); draw a t x_in (Some lin)
           else do _ <- draw a t x_in (Some lin); draw a t x_out (Some lout));
  do lo <- lift (rmin1 t);
  do hi <- lift (rmax1 t);
  do _ <- set_xlim a lo hi;
  set_ylabel a "Acceleration".

Definition plot_site_amp (s_in s_out : signal) (freq amp smoothed phase : option (list R)) (fig : option nat)
    (lin lout lamp lphase : string) : draws (nat * list nat) :=
  let amp := match freq with None => None | _ => amp end in
  let smoothed := match freq with None => None | _ => smoothed end in
  let phase := match freq with None => None | _ => phase end in
  do ok <- lift (times_agree (times s_in) (times s_out));
  if negb ok then raise AssertionError else
  do fa <- process_fig_ax fig None true;
  let f := fst fa in
  do a0 <- add_subplot f;
  do _ <- plot_histories a0 (times s_in) (vals s_in) (vals s_out) lin lout;
  do a1 <- match freq with
           | None => done []
           | Some fr =>
               do a <- add_subplot f;
               do _ <- draw_opt a fr amp (Some "Unsmoothed");
               do _ <- match smoothed with Some l => draw a fr l (Some "Smoothed") | None => done tt end;
               do _ <- draw a fr (map (fun _ => 1) fr) None;
               do _ <- set_ylabel a lamp;
               done [a]
           end;
  do a2 <- match phase, freq with
           | Some ph, Some fr =>
               do a <- add_subplot f;
               do _ <- draw a fr ph None;
               do _ <- set_ylabel a lphase;
               done [a]
           | _, _ => done []
           end;
  do fin <- lift (fourier_amplitude s_in false);
  do fout <- lift (fourier_amplitude s_out false);
  do a3 <- add_subplot f;
  do _ <- draw a3 (times fout) (vals fout) (Some lout);
  do _ <- draw a3 (times fin) (vals fin) (Some lin);
  do _ <- set_ylabel a3 "Fourier amplitudes";
  done (f, [a0] ++ a1 ++ a2 ++ [a3]).

(** ** Simulation_Results.plot, class_simulation_results.py:220-387 *)

(** One panel of lines 288-356: a profile of maxima against depth. *)
Definition panel (f : nat) (x z : list R) (deepest : R) : draws nat :=
  do a <- add_subplot f;
  do _ <- draw a x z None;
  do _ <- set_ylim a deepest 0;
  done a.
Definition col (j : nat) (m : arr) : list R := nth j (a_cols m) [].
Definition times_ (k : R) (l : list R) : list R := map (fun x => x * k) l.

Definition plot_maxima (avd gt : arr) : draws (nat * list nat) :=
  do deepest <- lift (rmax1 (col 0 avd));
  do f <- new_figure;
  do a1 <- panel f (col 1 avd) (col 0 avd) deepest;
  do a2 <- panel f (times_ 100 (col 2 avd)) (col 0 avd) deepest;
  do a3 <- panel f (times_ 100 (col 3 avd)) (col 0 avd) deepest;
  do a4 <- panel f (times_ 100 (col 1 gt)) (col 0 gt) deepest;
  do a5 <- panel f (map (fun x => x / 1000) (col 2 gt)) (col 0 gt) deepest;
  done (f, [a1; a2; a3; a4; a5]).

(** Lines 255-366: both figures, the second one only if both tables are there. *)
Definition results_figures (h : sheap) (r : results) : draws ((nat * list nat) * option (nat * list nat)) :=
  let tf := rr_tf r in
  do fig1 <- plot_site_amp (sig_at h (m_accel (rr_input r))) (sig_at h (m_accel (rr_surface r)))
               (option_map fs_freq tf) (option_map amplitude tf) (option_map amplitude (rr_tf_smooth r)) (option_map phase tf)
               None "Input" "Output" "Amplification" "Phase shift [rad]";
  do _ <- match snd fig1 with a0 :: _ => set_ylabel a0 "Accel. [m/s/s]" | [] => raise IndexError end;
  do fig2 <- match rr_max_avd r, rr_max_gt r with
             | Some avd, Some gt => do p <- plot_maxima avd gt; done (Some p)
             | _, _ => done None
             end;
  done (fig1, fig2).

(** Directories that exist and image files written so far (directory, file name).  [os.makedirs] creates
    the directory; a directory is known by the string used for it (other spellings and parents are
    left out).  [fig.savefig] into a directory that does not exist raises. *)
Record disk := mkdisk { dk_dirs : list string; dk_files : list (string * string) }.
Definition is_dir (d : disk) (s : string) : bool := existsb (String.eqb s) (dk_dirs d).
Definition makedirs (d : disk) (s : string) : disk := if is_dir d s then d else mkdisk (s :: dk_dirs d) (dk_files d).
Definition savefig (d : disk) (dir file : string) : disk * res unit :=
  if is_dir d dir then (mkdisk (dk_dirs d) (dk_files d ++ [(dir, file)]), Ok tt) else (d, Err FileNotFoundError).

(** Lines 368-387: saving; line 380 joins [self.output_dir], not [output_dir]. *)
Definition results_save (d : disk) (r : results) (output_dir : option string) (second : bool) : disk * res unit :=
  let dir := match output_dir with Some s => s | None => rr_dir r end in
  let d := makedirs d dir in
  match savefig d dir (rr_name r ++ "_ground_motions.png") with
  | (d1, Err e) => (d1, Err e)
  | (d1, Ok _) => if second then savefig d1 (rr_dir r) (rr_name r ++ "_max_profiles.png") else (d1, Ok tt)
  end.

Definition results_plot (h : sheap) (r : results) (save_fig : bool) (output_dir : option string) (c : canvas) (d : disk)
    : canvas * disk * res ((nat * list nat) * option (nat * list nat)) :=
  match results_figures h r c with
  | (c1, Err e) => (c1, d, Err e)
  | (c1, Ok p) =>
      if save_fig then
        match results_save d r output_dir (match snd p with Some _ => true | None => false end) with
        | (d1, Err e) => (c1, d1, Err e)
        | (d1, Ok _) => (c1, d1, Ok p)
        end
      else (c1, d, Ok p)
  end.

(** ** _plot_damping_curve_fit, helper_site_response.py:2299-2363
    [damping_of] is [calc_damping_from_param] (lines 2170-2207) with the stress function of the model. *)
Section Fit.
Variable damping_of : dict -> list R -> res (list R).

Definition plot_damping_fit (data : signal) (param : dict) (fig ax : option nat) (min_pct max_pct : R) : draws (nat * nat) :=
  do fa <- fig_ax fig ax;
  do init <- lift (get (vals data) 0);
  do _ <- draw (snd fa) (times data) (vals data) (Some "data");
  let strain := logspace (log10 (min_pct / 100)) (log10 (max_pct / 100)) 50 in
  do fit <- lift (damping_of param strain);
  do _ <- draw (snd fa) (times_ 100 strain) (map (fun x => x * 100 + init) fit) (Some "curve fit");
  done fa.

(** Lines 2521-2537 of [fit_all_damping_curves]: one panel per layer, drawn after the fits from the
    caller's arrays.  No layers: [plt.figure] of height 0 raises (ValueError). *)
Fixpoint fit_panels (h : sheap) (locs : list nat) (params : list dict) (f : nat) : draws unit :=
  match locs with
  | [] => done tt
  | l :: locs' =>
      do a <- add_subplot f;
      do p <- lift (get params 0);
      do _ <- plot_damping_fit (sig_at h l) p (Some f) (Some a) (1 / 10000) 10;
      fit_panels h locs' (tl params) f
  end.

(** [fit_all_damping_curves] with [show_fig=True]: fit, then draw. *)
Definition fit_all_show (fit : fitter) (parallel : bool) (h : sheap) (locs : list nat) (c : canvas) : canvas * sheap * res (list dict) :=
  match fit_all fit parallel h locs with
  | (h1, Err e) => (c, h1, Err e)
  | (h1, Ok ps) =>
      match locs with
      | [] => (c, h1, Err ValueError)
      | _ =>
        match (do f <- new_figure; fit_panels h1 locs ps f) c with
        | (c1, Err e) => (c1, h1, Err e)
        | (c1, Ok _) => (c1, h1, Ok ps)
        end
      end
  end.
End Fit.
