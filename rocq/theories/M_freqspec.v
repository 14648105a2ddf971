(** Model of class_frequency_spectrum.py (text files, figures and [__repr__] left out). *)
From Coq Require Import Reals List Bool ZArith Lia Lra.
From Coquelicot Require Import Complex.
From Verif Require Import Base M_generic M_motion M_interp M_dft M_signal M_amplify.
Import ListNotations.
Open Scope R_scope.

(** The [data] argument: a 1-D array, a 2-D array of two columns (the first one real), a 2-D
    array of one column, or an array of any other shape (of at least
    two rows).  Complex and real arrays alike are
    lists of complex numbers. *)
Inductive cdata := CD1 (l : list C) | CD2 (rows : list (R * C)) | CDcol (l : list C) | CDother.

(** helper_generic.py:152-224 [read_two_column_stuff] for complex values: the axis made for one
    column depends on the length only.  An array of shape (1, 2) counts as one column. *)
Definition one_ccolumn (l : list C) (df : option R) : res (list (R * C) * R) :=
  let! p := one_column (length l) (map Re l) df in
  Ok (combine (map fst (fst p)) l, snd p).
Definition cread (data : cdata) (df : option R) : res (list (R * C) * R) :=
  match data with
  | CD1 l => one_ccolumn l df
  | CDcol l => match l with [] => Err TypeError | _ => one_ccolumn l df end
  | CD2 rows =>
      if Nat.eqb (length rows) 1 then one_ccolumn (map (fun r => RtoC (fst r)) rows) df
      else
        let! c1 := get (map fst rows) 1 in
        let! c0 := get (map fst rows) 0 in
        Ok (rows, c1 - c0)
  | CDother => Err TypeError
  end.

(** Arguments of the interpolation: fmin, fmax, n_pts, log_scale. *)
Record grid := mkgrid { gr_min : R; gr_max : R; gr_n : nat; gr_log : bool }.

(** Attributes; [amplitude], [phase] and the two-column arrays are below. *)
Record fspec := mkfs {
  fs_df : R; fs_raw : list (R * C); fs_npts : nat; fs_freq : list R; fs_fmin : R; fs_fmax : R;
  fs_spec : list C }.

(** [np.interp] of complex values interpolates real and imaginary parts. *)
Definition cinterpolate (g : grid) (ref : list (R * C)) : res (list (R * C)) :=
  let! re := interpolate (gr_min g) (gr_max g) (gr_n g) (map (fun p => (fst p, Re (snd p))) ref) (gr_log g) in
  let! im := interpolate (gr_min g) (gr_max g) (gr_n g) (map (fun p => (fst p, Im (snd p))) ref) (gr_log g) in
  Ok (combine (map fst re) (combine (map snd re) (map snd im))).

(** class_frequency_spectrum.py:101-148 [__init__]; [interp] is the grid when [interpolate]
    is true. *)
Definition fs_init (data : cdata) (df : option R) (interp : option grid) : res fspec :=
  let! d := cread data df in
  let! pts := match interp with None => Ok (fst d) | Some g => cinterpolate g (fst d) end in
  let n := match interp with None => length (fst d) | Some g => gr_n g end in
  let freq := map fst pts in
  let! lo := rmin1 freq in
  let! hi := rmax1 freq in
  Ok (mkfs (snd d) (fst d) n freq lo hi (map snd pts)).

(** Lines 143-148. *)
Definition amplitude (s : fspec) : list R := map Cmod (fs_spec s).
Definition amplitude_2col (s : fspec) : list (R * R) := combine (fs_freq s) (amplitude s).
Definition phase (s : fspec) : list R := map carg (fs_spec s).
Definition iscomplex (s : fspec) : bool := existsb (fun z => negb (Reqb (Im z) 0)) (fs_spec s).

(** class_frequency_spectrum.py:224-279 [get_smoothed], with the window and end options of
    [log_smooth]; smoothing acts on real and imaginary parts alike.  Without a figure line 279
    reads two locals never assigned. *)
Definition get_smoothed (s : fspec) (L : nat) (show_fig log_scale : bool) (w : window) (n_pts : option nat)
    (fix_ends : bool) (beta1 beta2 : R) : res (list C) :=
  let sm part := log_smooth (map part (fs_spec s)) L w (negb log_scale) (Some (fs_fmin s)) (Some (fs_fmax s)) n_pts fix_ends beta1 beta2 in
  let! re := sm Re in
  let! im := sm Im in
  if show_fig then Ok (combine re im) else Err UnboundLocalError.

(** class_frequency_spectrum.py:281-291 [get_f0]. *)
Definition get_f0 (s : fspec) : res R := find_f0 (amplitude_2col s).

(** class_frequency_spectrum.py:293-318 [get_unwrapped_phase]. *)
Definition get_unwrapped_phase (s : fspec) (robust : bool) : res fspec :=
  let u := if robust then robust_unwrap (phase s) PI else np_unwrap PI (phase s) in
  fs_init (CD1 (map (fun p => polar_c (fst p) (snd p)) (combine (amplitude s) u))) (Some (fs_df s)) None.
