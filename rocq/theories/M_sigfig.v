(** Model of the figures drawn by [Ground_Motion.truncate] and by response spectra,
    class_ground_motion.py:564-690 and helper_site_response.py:681-705. *)
From Coq Require Import Reals List Bool ZArith String.
From Verif Require Import Base M_generic M_motion M_spectra M_amplify M_figures.
Import ListNotations.
Open Scope string_scope.
Open Scope list_scope.
Open Scope R_scope.

(** class_ground_motion.py:649-683: [n1], [n2] are the sample numbers, [tr] the truncated array; styles are left out. *)
Definition truncation_figure (h : sheap) (m : motion) (n1 n2 : Z) (tr : signal) : draws nat :=
  let window := pyslice n1 n2 (m_time m) in
  do f <- new_figure;
  do a <- add_subplot f;
  do _ <- draw a (m_time m) (vals (sig_at h (m_accel m))) (Some "original");
  do _ <- draw a window (vals tr) (Some "truncated");
  do _ <- set_ylabel a "Accel. [m/s/s]";
  do b <- add_subplot f;
  do _ <- draw b (m_time m) (vals (sig_at h (m_veloc m))) None;
  do vu <- lift (num_int tr);
  do _ <- draw b window (vals (fst vu)) None;
  do _ <- set_ylabel b "Veloc. [m/s]";
  do e <- add_subplot f;
  do _ <- draw e (m_time m) (vals (sig_at h (m_displ m))) None;
  do _ <- draw e window (vals (snd vu)) None;
  do _ <- set_ylabel e "Displ. [m]";
  done f.

(** class_ground_motion.py:617-690 [truncate] with [show_fig]: the figure, if asked for, is drawn before the new motion
    is constructed; returned are the motion, the figure and the sample numbers. *)
Definition gm_truncate_show (show : bool) (h : sheap) (m : motion) (lim1 lim2 : R) (arias_lim : bool) (e1 e2 : R) (c : canvas)
    : canvas * sheap * res (motion * option nat * (Z * Z)) :=
  if Rltb e1 0 || Rltb e2 0 then (c, h, Err ValueError)
  else if Rleb lim2 lim1 then (c, h, Err ValueError)
  else
    let s := sig_at h (m_accel m) in
    match (if arias_lim then arias_time_bounds (times s) (ia_norm (m_arias m)) lim1 lim2 else Ok (lim1, lim2)) with
    | Err e => (c, h, Err e)
    | Ok (t1, t2) =>
        let n1 := py_int ((t1 - e1) / m_dt m) in
        let n2 := py_int ((t2 + e2) / m_dt m) in
        let n1 := if Z.ltb n1 0 then 0%Z else n1 in
        let n2 := if Z.ltb (Z.of_nat (m_npts m)) n2 then Z.of_nat (m_npts m) else n2 in
        let tt_ := pyslice 0 (n2 - n1) (times s) in
        let aa := pyslice n1 n2 (vals s) in
        if negb (Nat.eqb (List.length tt_) (List.length aa)) then (c, h, Err ValueError)
        else
          let tr := combine tt_ aa in
          match (if show then let '(c1, r) := truncation_figure h m n1 n2 tr c in (c1, let! f := r in Ok (Some f)) else (c, Ok None)) with
          | (c1, Err e) => (c1, h, Err e)
          | (c1, Ok f) =>
              let '(h', r) := gm_init (h ++ [tr]) (List.length h) U_m T_accel in
              (c1, h', let! m' := r in Ok (m', f, (n1, n2)))
          end
    end.

(** helper_site_response.py:681-705: the figure of response spectra; [t], [a] are the samples used.  A period whose
    task is missing (which does not happen when all tasks finish) has no value. *)
Definition peak_line (g : peaks -> R) (rows : list (option peaks)) : list R :=
  map (fun o => match o with Some p => g p | None => 0 end) rows.
Definition spectra_figure (t a : list R) (Tmin Tmax : R) (r : spectra) : draws unit :=
  do f <- new_figure;
  do x <- add_subplot f;
  do _ <- draw x t a None;
  do _ <- set_ylabel x "Input accel. [m/s/s]";
  do lo <- lift (rmin1 t);
  do hi <- lift (rmax1 t);
  do _ <- set_xlim x lo hi;
  do y <- add_subplot f;
  do _ <- draw y (s_Tn r) (peak_line p_SA (s_rows r)) None;
  do _ <- set_ylabel y "Spec. accel. [m/s/s]";
  do _ <- set_xlim y Tmin Tmax;
  do z <- add_subplot f;
  do _ <- draw z (s_Tn r) (peak_line p_PSA (s_rows r)) None;
  do _ <- set_ylabel z "Pseudo S.A. [m/s/s]";
  do _ <- set_xlim z Tmin Tmax;
  done tt.

(** helper_site_response.py:485-707 [response_spectra] with [show_fig]. *)
Definition response_spectra_show (show : bool) (s : signal) (Tmin Tmax : R) (n : nat) (xi : R) (k : nat) (parallel : option (list nat)) (c : canvas)
    : canvas * res spectra :=
  match response_spectra s Tmin Tmax n xi k parallel with
  | Err e => (c, Err e)
  | Ok r =>
      if show then
        match spectra_figure (every k (times s)) (every k (vals s)) Tmin Tmax r c with
        | (c1, Err e) => (c1, Err e)
        | (c1, Ok _) => (c1, Ok r)
        end
      else (c, Ok r)
  end.
