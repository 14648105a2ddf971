(** Model of the signal methods of Ground_Motion (class_ground_motion.py:235-326, 826-895 and
    943-1115) and of helper_site_response.py:1925-2030.  Figures are left out; what is drawn
    is what a model function returns. *)
From Coq Require Import Reals List Bool ZArith Lia Lra.
From Coquelicot Require Import Complex.
From Coq Require Import List.
From Verif Require Import Base M_generic M_profile M_motion M_interp M_dft M_spectra M_signal M_amplify M_freqspec M_results.
Import ListNotations.
Open Scope R_scope.

(** ** Spectra *)

(** class_ground_motion.py:235-267 [get_Fourier_spectrum]. *)
Definition gm_fourier (sh : sheap) (m : motion) (real_val double_sided : bool) : res fspec :=
  let s := sig_at sh (m_accel m) in
  if real_val then
    let! A := fourier_amplitude s double_sided in
    fs_init (CD2 (map (fun p => (fst p, RtoC (snd p))) A)) None None
  else
    let! X := fourier_transform s double_sided in
    fs_init (CD2 X) None None.

(** class_ground_motion.py:269-326 [get_response_spectra]. *)
Definition gm_response_spectra (sh : sheap) (m : motion) (Tmin Tmax : R) (n : nat) (xi : R) (k : nat) (parallel : option (list nat)) : res spectra :=
  response_spectra (sig_at sh (m_accel m)) Tmin Tmax n xi k parallel.

(** ** Filters *)

(** [Ground_Motion(accel_, unit='m')] around a filtered array, which is the array of the
    motion itself when nothing is filtered. *)
Definition refit (sh : sheap) (m : motion) (o : res fout) : sheap * res motion :=
  match o with
  | Err e => (sh, Err e)
  | Ok FSame => gm_init sh (m_accel m) U_m T_accel
  | Ok (FNew y) => gm_init (sh ++ [y]) (length sh) U_m T_accel
  end.

Section Filtering.
(** [scipy.signal.butter]. *)
Variable butter : nat -> fkind -> list R -> list section.

(** class_ground_motion.py:968-1115 [lowpass], [highpass], [bandpass], [bandstop] with
    helper_signal_processing.py:14-175; [padlen] is never read. *)
Definition gm_filter (k : fkind) (sh : sheap) (m : motion) (c : cutoff) (order : nat) : sheap * res motion :=
  refit sh m (filter_kernel butter (sig_at sh (m_accel m)) c k order).
Definition gm_lowpass := gm_filter Lowpass.
Definition gm_highpass := gm_filter Highpass.
Definition gm_bandpass := gm_filter Bandpass.
Definition gm_bandstop := gm_filter Bandstop.

(** class_ground_motion.py:943-966 [baseline_correct]. *)
Definition gm_baseline (sh : sheap) (m : motion) (f : R) : sheap * res motion :=
  refit sh m (let! y := baseline butter (sig_at sh (m_accel m)) f in Ok (FNew y)).
End Filtering.

(** ** Comparison of two motions *)

(** helper_site_response.py:2009-2030 [_align_two_time_arrays] (a step of zero is left out:
    NumPy would then count to infinity). *)
Definition align (t1 t2 : list R) : res (list R) :=
  if Nat.ltb (length t1) 2 || Nat.ltb (length t2) 2 then Err ValueError
  else
    let dt := Rmin (nth 1 t1 0 - nth 0 t1 0) (nth 1 t2 0 - nth 0 t2 0) in
    let n := ceil (Rmax (last t1 0) (last t2 0) / dt) in
    if Z.ltb n 0 then Err ValueError        (* np.linspace *)
    else Ok (linspace dt (dt * IZR n) (Z.to_nat n)).

(** What is drawn: the two records on the common grid, the frequencies, the complex ratio
    ([None]: not finite), and the smoothed amplification ([None]: not asked for, or some ratio
    not finite, whose effect on the smoothing is left out). *)
Record comparison := mkcmp {
  cm_in : signal; cm_out : signal; cm_freq : list R; cm_tf : list (option C); cm_smooth : option (list R) }.
Definition amp_of (z : option C) : option R := option_map Cmod z.
Definition phase_of (z : option C) : option R := option_map carg z.

Fixpoint all_some {A} (l : list (option A)) : option (list A) :=
  match l with
  | [] => Some []
  | Some a :: r => option_map (cons a) (all_some r)
  | None :: _ => None
  end.

(** helper_site_response.py:1925-2006 [compare_two_accel]; lines 1984-1985: window and end
    options of [log_smooth] are its defaults. *)
Definition compare_two_accel (a_in a_out : signal) (smooth : bool) : res comparison :=
  let! t := align (times a_in) (times a_out) in
  let! y_in := np_interp a_in t in
  let! y_out := np_interp a_out t in
  let s_in := combine t y_in in
  let s_out := combine t y_out in
  let! X := fourier_transform s_in false in
  let! Y := fourier_transform s_out false in
  let tf := map (fun p => cdivo (snd (snd p)) (snd (fst p))) (combine X Y) in
  let sm l := log_smooth l 15 Hanning false None None None true (9 / 10) (9 / 10) in
  let! sm :=
    (if smooth then
       match all_some (map amp_of tf) with
       | Some l => let! y := sm l in Ok (Some y)
       | None => let! _ := sm (map (fun _ => 0) tf) in Ok None
       end
     else Ok None) in
  Ok (mkcmp s_in s_out (map fst X) tf sm).

(** class_ground_motion.py:826-895 [compare]. *)
Definition gm_compare (sh : sheap) (m : motion) (other : arg motion) (this_as_input smooth : bool) : res comparison :=
  match other with
  | Inst m2 =>
      let a1 := sig_at sh (m_accel m) in
      let a2 := sig_at sh (m_accel m2) in
      if this_as_input then compare_two_accel a1 a2 smooth else compare_two_accel a2 a1 smooth
  | _ => Err TypeError
  end.
