(** Model of PySeismoSoil/helper_signal_processing.py (all but [sine_smooth], which
    is in M_sine.v, and the plotting code).  Signals are finite two-column float
    arrays, which the format check accepts; a zero first time step (division by zero,
    infinities) is outside this model. *)
From Coq Require Import Reals List Bool ZArith Lia Lra.
From Coquelicot Require Import Complex.
From Coq Require Import List.
From Verif Require Import Base M_generic M_motion M_interp M_soil M_dft.
Import ListNotations.
Open Scope R_scope.

(** ** Fourier spectra *)

(** helper_signal_processing.py:503-581 [fourier_transform] with [real_val=False];
    line 541: labels start at one bin; [int(ceil(N/2))] rows unless [double_sided]. *)
Definition fourier_transform (s : signal) (double_sided : bool) : res (list (R * C)) :=
  let! dt := first_step s in
  let N := length s in
  let X := dft (map RtoC (vals s)) in
  let n := if double_sided then N else Nat.div (N + 1) 2 in
  Ok (combine (map (fun k => INR (k + 1) / (INR N * dt)) (seq 0 n)) (firstn n X)).

(** The same with [real_val=True] (the default): lines 543 and 551. *)
Definition fourier_amplitude (s : signal) (double_sided : bool) : res signal :=
  let! X := fourier_transform s double_sided in
  Ok (map (fun p => (fst p, Cmod (snd p))) X).

(** ** Filters *)

Inductive fkind := Lowpass | Highpass | Bandpass | Bandstop | BadKind.
(** The [cutoff_freq] argument: a number, a list/tuple/array of numbers, or something
    that is neither (None). *)
Inductive cutoff := CNum (f : R) | CSeq (l : list R) | COther.
(** One second-order section (leading denominator coefficient 1, as produced by
    [scipy.signal.butter]). *)
Record section := mksec { b0 : R; b1 : R; b2 : R; a1 : R; a2 : R }.

(** [scipy.signal.sosfilt]: direct form II transposed, zero initial state. *)
Fixpoint biquad (c : section) (z1 z2 : R) (x : list R) : list R :=
  match x with
  | [] => []
  | u :: x' =>
      let y := b0 c * u + z1 in
      y :: biquad c (b1 c * u - a1 c * y + z2) (b2 c * u - a2 c * y) x'
  end.
Definition sosfilt (sos : list section) (x : list R) : list R :=
  fold_left (fun y c => biquad c 0 0 y) sos x.

(** The returned object: the argument array itself, or a new array. *)
Inductive fout := FSame | FNew (s : signal).

Section Filters.
(** [scipy.signal.butter(order, Wn, btype, output='sos')]: the design itself is not
    modelled; it raises ValueError unless all normalised cutoffs are in (0, 1). *)
Variable butter : nat -> fkind -> list R -> list section.

(** helper_signal_processing.py:265-268 and 332. *)
Definition design (order : nat) (k : fkind) (Wn : list R) (s : signal) : res fout :=
  if forallb (fun w => Rltb 0 w && Rltb w 1) Wn
  then Ok (FNew (with_vals s (sosfilt (butter order k Wn) (vals s))))
  else Err ValueError.

Definition nyquist (dt : R) : R := 1 / dt / 2.

(** helper_signal_processing.py:178-332 [_filter_kernel] for a scalar cutoff. *)
Definition filter_low (s : signal) (f : R) (order : nat) : res fout :=
  let! dt := first_step s in
  if Rleb (nyquist dt) f then Ok FSame
  else design order Lowpass [f / nyquist dt] s.
Definition filter_high (s : signal) (f : R) (order : nat) : res fout :=
  let! dt := first_step s in
  if Rleb f 0 then Ok FSame
  else design order Highpass [f / nyquist dt] s.

(** helper_signal_processing.py:178-332 [_filter_kernel]; line 188: unpacking a number
    or None raises TypeError, a sequence of another length ValueError. *)
Definition filter_kernel (s : signal) (c : cutoff) (k : fkind) (order : nat) : res fout :=
  match k with
  | Lowpass => match c with CNum f => filter_low s f order | _ => Err TypeError end
  | Highpass => match c with CNum f => filter_high s f order | _ => Err TypeError end
  | BadKind => Err ValueError
  | _ =>
    match c with
    | CSeq [fmin; fmax] =>
        if Rleb fmax fmin then Err ValueError
        else
          let! dt := first_step s in
          let fN := nyquist dt in
          let df := 1 / (INR (length s) * dt) in
          if Rleb (fN * (9999 / 10000)) fmax
          then match k with Bandpass => filter_high s fmin order | _ => filter_low s fmin order end
          else if Rleb fmin df
          then match k with Bandpass => filter_low s fmax order | _ => filter_high s fmax order end
          else design order k [fmin / fN; fmax / fN] s
    | CSeq _ => Err ValueError
    | _ => Err TypeError
    end
  end.

(** The caller's view of a result. *)
Definition out_of (s : signal) (o : fout) : signal := match o with FSame => s | FNew t => t end.

(** ** Baseline correction *)

(** helper_signal_processing.py:493-500 [_remove_linear_trend]: [np.polyfit(t, x, 1)]
    as the least-squares line; all times equal (a rank-deficient fit) is outside this
    model. *)
Definition mean (l : list R) : R := rsum l / INR (length l).
Definition dot (a b : list R) : R := rsum (map (fun p => fst p * snd p) (combine a b)).
Definition centred (l : list R) : list R := map (fun x => x - mean l) l.
Definition fit_slope (t x : list R) : R := dot (centred t) (centred x) / dot (centred t) (centred t).
Definition remove_linear_trend (s : signal) : signal :=
  let m := fit_slope (times s) (vals s) in
  let c := mean (vals s) - m * mean (times s) in
  map (fun p => (fst p, snd p - (m * fst p + c))) s.

(** Lines 373-404: the sign used for crossings (zero counts as positive); first index
    after 0 with a sign other than the first one (0 if none). *)
Definition positive (x : R) : bool := Rleb 0 x.
Fixpoint first_change (sgn : bool) (l : list R) (i : nat) : option nat :=
  match l with
  | [] => None
  | x :: l' => if Bool.eqb (positive x) sgn then first_change sgn l' (S i) else Some i
  end.
Definition cross_left (a : list R) : nat :=
  match a with
  | [] => 0%nat
  | x :: l => match first_change (positive x) l 1 with Some i => i | None => 0%nat end
  end.
(** Last index before the end with a sign other than the last one ([len(a)] if none). *)
Definition cross_right (a : list R) : nat :=
  match rev a with
  | [] => 0%nat
  | x :: l => match first_change (positive x) l 1 with Some i => (length a - 1 - i)%nat | None => length a end
  end.

(** [np.round]: to the nearest integer, ties to even. *)
Definition rint (x : R) : Z :=
  let f := Int_part x in
  if Rltb (x - IZR f) (1 / 2) then f else if Rltb (1 / 2) (x - IZR f) then (f + 1)%Z
  else if Z.even f then f else (f + 1)%Z.

(** helper_signal_processing.py:335-490 [baseline] (figure not modelled). *)
Definition baseline_core (s : signal) (cutoff_freq : R) : res (list R) :=
  let! dt := first_step s in
  let x := vals s in
  let n0 := length x in
  if Nat.ltb n0 5 then Err IndexError
  else
    let pre_mean := (nth 0 x 0 + nth 1 x 0 + nth 2 x 0 + nth 3 x 0 + nth 4 x 0) / 5 in
    let a := map (fun v => v - pre_mean) x in
    let cl := cross_left a in
    let cr := cross_right a in
    let a_cut := slice cl (cr + 1) a in
    if Reqb cutoff_freq 0 then Err ZeroDivisionError
    else
      let nr := Z.to_nat (Z.max 1000 (Z.max (rint (15 / 10 * 2 / cutoff_freq / dt)) (Z.of_nat (cl + 1)))) in
      let a_pad := repeat 0 nr ++ a_cut ++ repeat 0 nr in
      let t_pad := linspace dt (INR (length a_pad) * dt) (length a_pad) in
      let! o := filter_high (combine t_pad a_pad) cutoff_freq 4 in
      let a_new := skipn (nr - cl - 1) (vals (out_of (combine t_pad a_pad) o)) in
      Ok (if Nat.leb n0 (length a_new) then firstn n0 a_new else a_new ++ repeat 0 (n0 - length a_new)).
Definition baseline (s : signal) (cutoff_freq : R) : res signal :=
  let! a_new := baseline_core s cutoff_freq in
  let! vu := num_int (with_vals s a_new) in
  let! v2 := num_diff (remove_linear_trend (snd vu)) in
  num_diff v2.
End Filters.

(** ** Tapering *)

(** [scipy.signal.tukey(M, alpha)] (symmetric window). *)
Definition tukey_at (M : nat) (alpha : R) (n : nat) : R :=
  let w := Z.to_nat (Int_part (alpha * INR (M - 1) / 2)) in
  if Nat.ltb n (w + 1) then (1 + cos (PI * (-1 + 2 * INR n / alpha / INR (M - 1)))) / 2
  else if Nat.ltb n (M - w - 1) then 1
  else (1 + cos (PI * (- 2 / alpha + 1 + 2 * INR n / alpha / INR (M - 1)))) / 2.
Definition hann_at (M n : nat) : R := (1 - cos (2 * PI * INR n / INR (M - 1))) / 2.
Definition tukey (M : nat) (alpha : R) : list R :=
  if Nat.leb M 1 then repeat 1 M
  else if Rleb alpha 0 then repeat 1 M
  else if Rleb 1 alpha then map (hann_at M) (seq 0 M)
  else map (tukey_at M alpha) (seq 0 M).

(** helper_signal_processing.py:584-623 [taper_Tukey]; line 613 calls [column_stack]
    with two positional arguments, a TypeError. *)
Inductive tapered := T1 (x : list R) | T2 (s : signal) | TOther | TNotArray.
Definition taper_Tukey (x : tapered) (width : R) : res (list R) :=
  match x with
  | T1 v => Ok (map (fun p => fst p * snd p) (combine v (tukey (length v) (width / 2))))
  | _ => Err TypeError
  end.

(** ** Smoothing *)

Inductive window := Flat | Hanning | Hamming | Bartlett | Blackman | BadWindow.
(** [np.ones], [np.hanning], [np.hamming], [np.bartlett], [np.blackman] for M >= 2. *)
Definition win_at (w : window) (M n : nat) : R :=
  let c := cos (2 * PI * INR n / INR (M - 1)) in
  match w with
  | Flat => 1
  | Hanning => 1 / 2 - 1 / 2 * c
  | Hamming => 54 / 100 - 46 / 100 * c
  | Bartlett => 2 / INR (M - 1) * (INR (M - 1) / 2 - Rabs (INR n - INR (M - 1) / 2))
  | Blackman => 42 / 100 - 1 / 2 * c + 8 / 100 * cos (4 * PI * INR n / INR (M - 1))
  | BadWindow => 0
  end.
Definition win (w : window) (M : nat) : list R := map (win_at w M) (seq 0 M).

(** [np.convolve(w, x, mode='same')] for [len(w) <= len(x)]: entry [k] of the result
    is entry [k + (len(w)-1)//2] of the full convolution; samples outside are absent. *)
Definition conv_at (w x : list R) (k : nat) : R :=
  let o := (k + Nat.div (length w - 1) 2)%nat in
  rsum (map (fun j => if Nat.leb j o && Nat.ltb (o - j) (length x) then nth j w 0 * nth (o - j) x 0 else 0) (seq 0 (length w))).
Definition conv_same (w x : list R) : list R := map (conv_at w x) (seq 0 (length x)).
Definition normed (w : list R) : list R := map (fun a => a / rsum w) w.

(** helper_signal_processing.py:831-911 [lin_smooth]; a window of length 1 or 2 returns
    the argument itself. *)
Definition lin_smooth (x : list R) (L : nat) (w : window) : res (list R) :=
  if Nat.ltb (length x) L then Err ValueError
  else if Nat.ltb L 3 then Ok x
  else match w with
       | BadWindow => Err ValueError
       | _ => Ok (conv_same (normed (win w L)) x)
       end.

(** Lines 811-822: exponentially weighted averages at both ends. *)
Fixpoint ewa (b prev : R) (xs : list R) : list R :=
  match xs with
  | [] => []
  | x :: r => let y := b * prev + (1 - b) * x in y :: ewa b y r
  end.
Definition head_fix (x : list R) (n : nat) (b : R) : list R :=
  let m := mean (firstn n x) in m :: ewa b m (slice 1 n x).
Definition fix_both_ends (y x : list R) (n : nat) (beta1 beta2 : R) : list R :=
  head_fix x n beta1 ++ slice n (length y - n) y ++ rev (head_fix (rev x) n beta2).

(** helper_signal_processing.py:718-828 [log_smooth]. *)
Definition log_smooth (signal : list R) (L : nat) (w : window) (lin_space : bool) (fmin fmax : option R)
    (n_pts : option nat) (fix_ends : bool) (beta1 beta2 : R) : res (list R) :=
  if Nat.ltb (length signal) L then Err ValueError
  else if Nat.ltb L 3 then Ok signal
  else match w with BadWindow => Err ValueError | _ =>
    let! x :=
      (if lin_space then
         match fmin, fmax with
         | Some f1, Some f2 =>
             let n := match n_pts with Some n => n | None => length signal end in
             if Nat.eqb n (length signal)
             then np_interp (combine (linspace f1 f2 n) signal) (logspace (log10 f1) (log10 f2) n)
             else Err ValueError
         | _, _ => Err ValueError
         end
       else Ok signal) in
    let! y := lin_smooth x L w in
    if fix_ends then
      if Rltb beta1 0 || Rltb 1 beta1 then Err ValueError
      else if Rltb beta2 0 || Rltb 1 beta2 then Err ValueError
      else Ok (fix_both_ends y x (Nat.div L 2) beta1 beta2)
    else Ok y
  end.

(** ** Transfer functions of two records *)

(** Complex division; [None] stands for the NaN or infinity NumPy gives for a zero
    denominator. *)
Definition czerob (z : C) : bool := Reqb (fst z) 0 && Reqb (snd z) 0.
Definition cdivo (a b : C) : option C := if czerob b then None else Some (Cdiv a b).

(** [np.allclose(a, b, atol=1e-6)] of two numbers (default [rtol=1e-5]). *)
Definition close6 (a b : R) : bool := Rleb (Rabs (a - b)) (1 / 1000000 + 1 / 100000 * Rabs b).

(** Smoothing of values some of which are not finite: a non-finite value spreads to
    every result whose window covers it. *)
Definition smooth_o (x : list (option R)) (L : nat) (w : window) : res (list (option R)) :=
  let! y := lin_smooth (map (fun v => match v with Some r => r | None => 0 end) x) L w in
  if Nat.ltb L 3 then Ok x
  else Ok (map (fun k =>
      let o := (k + Nat.div (L - 1) 2)%nat in
      if existsb (fun j => Nat.leb j o && match nth_error x (o - j) with Some None => true | _ => false end) (seq 0 L)
      then None else Some (nth k y 0)) (seq 0 (length x))).

Inductive tfout := TFc (l : list (R * option C)) | TFr (l : list (R * option R)).

(** helper_signal_processing.py:626-715 [calc_transfer_function] (the printed warning
    is dropped: with equal lengths only the time steps matter). *)
Definition calc_transfer_function (s_in s_out : signal) (amplitude_only smooth_signal : bool) : res tfout :=
  let! dt_in := first_step s_in in
  let! dt_out := first_step s_out in
  if negb (close6 dt_in dt_out) then Err ValueError
  else if negb (Nat.eqb (length s_in) (length s_out)) then Err ValueError
  else
    let! X := fourier_transform s_in false in
    let! Y := fourier_transform s_out false in
    let freq := map fst X in
    let tf := map (fun p => cdivo (snd (snd p)) (snd (fst p))) (combine X Y) in
    let absr := map (fun z => match z with Some c => Some (Cmod c) | None => None end) tf in
    if negb amplitude_only && smooth_signal then Err ValueError
    else if negb smooth_signal then
      if amplitude_only then Ok (TFr (combine freq absr)) else Ok (TFc (combine freq tf))
    else
      let! sm := smooth_o absr 15 Hanning in
      Ok (TFr (combine freq sm)).
