(** Model of the figures drawn by filters and by baseline correction,
    helper_signal_processing.py:178-490 and class_ground_motion.py:941-1115. *)
From Coq Require Import Reals List Bool ZArith String.
From Verif Require Import Base M_generic M_motion M_amplify M_signal M_figures.
Import ListNotations.
Open Scope string_scope.
Open Scope list_scope.
Open Scope R_scope.

Section Show.
(** [scipy.signal.butter], as in M_signal. *)
Variable butter : nat -> fkind -> list R -> list section.
(** [ax.get_ylim()] for axes with the given lines: the limits matplotlib chooses. *)
Variable auto : list line -> R * R.

(** helper_signal_processing.py:291-302: one orange line for each cutoff.  A tuple of two goes to line 302, where the
    two columns of the abscissae give the same two lines. *)
Fixpoint cutoff_lines (a : nat) (yl : R * R) (cut : list R) : draws unit :=
  match cut with
  | [] => done tt
  | x :: cut' => do _ <- draw a [x; x] [fst yl; snd yl] None; cutoff_lines a yl cut'
  end.

(** helper_signal_processing.py:289-309 and 311-329: the amplitude spectrum and the cutoffs; the lower limit of the
    horizontal axis (0.01) and its label are left out. *)
Definition spectrum_panel (f : nat) (s : signal) (cut : list R) : draws unit :=
  do a <- add_subplot f;
  do X <- lift (fourier_amplitude s false);
  do _ <- draw a (times X) (vals X) None;
  do _ <- cutoff_lines a (auto [mkline (times X) (vals X) None]) cut;
  do top <- lift (rmax1 (skipn 1 (vals X)));
  do _ <- set_ylim a 0 top;
  set_ylabel a "Fourier amplitude".

(** helper_signal_processing.py:275-331: [s] is the signal, [out] the filtered one. *)
Definition filter_figure (s out : signal) (cut : list R) : draws unit :=
  do f <- new_figure;
  do a <- add_subplot f;
  do _ <- draw a (times s) (vals s) None;
  do _ <- set_title a "Original";
  do _ <- set_ylabel a "Signal";
  do b <- add_subplot f;
  do _ <- draw b (times s) (vals out) None;
  do _ <- set_title b "After filtering";
  do _ <- set_ylabel b "Signal";
  do _ <- spectrum_panel f s cut;
  spectrum_panel f out cut.

(** helper_signal_processing.py:268-332: design, filter, figure, result. *)
Definition filter_and_show (show : bool) (s : signal) (order : nat) (k : fkind) (Wn cut : list R) : draws fout :=
  do o <- lift (design butter order k Wn s);
  match o with
  | FNew out => if show then do _ <- filter_figure s out cut; done o else done o
  | FSame => done o
  end.

(** helper_signal_processing.py:178-332 [_filter_kernel] with [show_fig], for a number as cutoff. *)
Definition filter_low_show (show : bool) (s : signal) (f : R) (order : nat) : draws fout :=
  do dt <- lift (first_step s);
  if Rleb (nyquist dt) f then done FSame
  else filter_and_show show s order Lowpass [f / nyquist dt] [f].
Definition filter_high_show (show : bool) (s : signal) (f : R) (order : nat) : draws fout :=
  do dt <- lift (first_step s);
  if Rleb f 0 then done FSame
  else filter_and_show show s order Highpass [f / nyquist dt] [f].

(** helper_signal_processing.py:178-332 [_filter_kernel] with [show_fig]: lines 228-266 hand the flag on. *)
Definition filter_kernel_show (show : bool) (s : signal) (c : cutoff) (k : fkind) (order : nat) : draws fout :=
  match k with
  | Lowpass => match c with CNum f => filter_low_show show s f order | _ => raise TypeError end
  | Highpass => match c with CNum f => filter_high_show show s f order | _ => raise TypeError end
  | BadKind => raise ValueError
  | _ =>
    match c with
    | CSeq [fmin; fmax] =>
        if Rleb fmax fmin then raise ValueError
        else
          do dt <- lift (first_step s);
          let fN := nyquist dt in
          let df := 1 / (INR (List.length s) * dt) in
          if Rleb (fN * (9999 / 10000)) fmax
          then match k with Bandpass => filter_high_show show s fmin order | _ => filter_low_show show s fmin order end
          else if Rleb fmin df
          then match k with Bandpass => filter_low_show show s fmax order | _ => filter_high_show show s fmax order end
          else filter_and_show show s order k [fmin / fN; fmax / fN] [fmin; fmax]
    | CSeq _ => raise ValueError
    | _ => raise TypeError
    end
  end.

(** helper_signal_processing.py:437-488: the figure of [baseline]; [a] is the local variable of that name, from which
    line 367 has subtracted the mean of five samples; [r] is the result. *)
Definition baseline_figure (s : signal) (a : list R) (r : signal) : draws unit :=
  do vu <- lift (num_int s);
  do wz <- lift (num_int r);
  do f <- new_figure;
  do p <- add_subplot f;
  do _ <- draw p (times s) a None;
  do _ <- set_title p "Uncorrected";
  do _ <- set_ylabel p "Acceleration";
  do p <- add_subplot f;
  do _ <- draw p (times (fst vu)) (vals (fst vu)) None;
  do _ <- set_ylabel p "Velocity";
  do p <- add_subplot f;
  do _ <- draw p (times (snd vu)) (vals (snd vu)) None;
  do _ <- set_ylabel p "Displacement";
  do p <- add_subplot f;
  do _ <- draw p (times r) (vals r) None;
  do _ <- set_title p "Baseline corrected";
  do _ <- set_ylabel p "Acceleration";
  do p <- add_subplot f;
  do _ <- draw p (times (fst wz)) (vals (fst wz)) None;
  do _ <- set_ylabel p "Velocity";
  do p <- add_subplot f;
  do _ <- draw p (times (snd wz)) (vals (snd wz)) None;
  do _ <- set_ylabel p "Displacement";
  do X <- lift (fourier_amplitude s false);
  do Y <- lift (fourier_amplitude r false);
  do p <- add_subplot f;
  do _ <- draw p (times X) (vals X) None;
  do _ <- draw p (times Y) (vals Y) None;
  do top <- lift (rmax1 (skipn 1 (vals X)));
  do _ <- set_ylim p 0 top;
  set_title p "Fourier spectra".

(** helper_signal_processing.py:335-490 [baseline] with [show_fig]; lines 366-367: the mean of the first five samples. *)
Definition baseline_show (show : bool) (s : signal) (cutoff_freq : R) : draws signal :=
  do r <- lift (baseline butter s cutoff_freq);
  if show then
    let x := vals s in
    let pre_mean := (nth 0 x 0 + nth 1 x 0 + nth 2 x 0 + nth 3 x 0 + nth 4 x 0) / 5 in
    do _ <- baseline_figure s (map (fun v => v - pre_mean) x) r;
    done r
  else done r.
End Show.
