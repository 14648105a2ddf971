(** Files and texts made of numbers: saved motions and what is read from them, the texts of objects,
    names made of the time. *)
From Coq Require Import ZArith List Bool String Ascii Reals.
From Flocq Require Import Core IEEE754.BinarySingleNaN.
From Verif Require Import Base M_float M_text.
Import ListNotations.
Open Scope string_scope.
Open Scope list_scope.

(** class_ground_motion.py:1117-1151 [save_accel] in m/s/s: time and acceleration of each sample, printed
    with [%.pg] and [%.qg] (both 5 by default); a line is the pair of its two cells (the separator is
    not modelled; it must not occur in numbers). *)
Definition save_rows (p q : nat) (rows : list (f64 * f64)) : list (string * string) :=
  map (fun r => (fmt_g p (fst r), fmt_g q (snd r))) rows.
(** [np.genfromtxt] (helper_generic.py:197): one row per line; here [None] if a cell is no finite number. *)
Fixpoint read_rows (lines : list (string * string)) : option (list (R * R)) :=
  match lines with
  | [] => Some []
  | (a, b) :: rest =>
      match read_double a, read_double b, read_rows rest with
      | Some x, Some y, Some t => Some ((x, y) :: t)
      | _, _, _ => None
      end
  end.
(** helper_generic.py:213-215: the time step is the difference of the first two times. *)
Definition read_step (rows : list (R * R)) : option R :=
  match rows with r0 :: r1 :: _ => Some (rnd64 (fst r1 - fst r0)) | _ => None end.
(** class_ground_motion.py:191: the peak of what was read. *)
Definition peak_R (l : list R) : R := fold_right (fun a m => Rmax (Rabs a) m) 0%R l.

(** ** Texts of objects *)
Open Scope nat_scope.
Definition newline : string := String (ascii_of_nat 10) EmptyString.
Fixpoint blanks (n : nat) : string := match n with O => "" | S k => String " " (blanks k) end%string.
(** ['{:^w}'.format(s)]: the smaller half of the padding goes to the left. *)
Definition center (w : nat) (s : string) : string :=
  let pad := w - String.length s in (blanks (pad / 2) ++ s ++ blanks (pad - pad / 2))%string.
Record layer_row := mkrow { l_thk : f64; l_vs : f64; l_damp : f64; l_rho : f64; l_mat : f64 }.
(** class_Vs_profile.py:201-203, 213. *)
Definition ruler : string := "----------+----------+-------------+------------------+--------------"%string.
Definition heading : string := "  Thk [m] | Vs [m/s] | Damping [%] | Density [kg/m^3] | Material No. "%string.
(** class_Vs_profile.py:206-211: one layer. *)
Definition row_text (r : layer_row) : res string :=
  let! m := fmt_d (l_mat r) in
  Ok (center 10 (fmt_f 2 (l_thk r)) ++ "|" ++ center 10 (fmt_f 1 (l_vs r)) ++ "|" ++ center 13 (fmt_f 3 (fmul (l_damp r) (lit 100 0))) ++ "|"
      ++ center 18 (fmt_f 1 (l_rho r)) ++ "|" ++ center 14 m)%string.
Fixpoint rows_text (rs : list layer_row) : res (list string) :=
  match rs with [] => Ok [] | r :: rest => let! t := row_text r in let! ts := rows_text rest in Ok (t :: ts) end.
(** class_Vs_profile.py:199-217 [Vs_Profile.__repr__], as the list of its lines. *)
Definition profile_text (rs : list layer_row) (vs30 : f64) : res (list string) :=
  let! ts := rows_text rs in
  Ok (["" ; ruler; heading; ruler] ++ ts ++ [ruler; ""; ("(Vs30 = " ++ fmt_f 1 vs30 ++ " m/s)")%string; ""]).
(** class_svm.py:281-282 [SVM.__repr__]. *)
Definition svm_text (vs30 z1 : f64) : string := ("Vs30 = " ++ fmt_g 2 vs30 ++ " m/s, z1 = " ++ fmt_g 2 z1 ++ " m")%string.
(** class_frequency_spectrum.py:150-157 [Frequency_Spectrum.__repr__]. *)
Definition spectrum_text (df : f64) (n : Z) (fmin fmax : f64) : string :=
  ("df = " ++ fmt_f 2 df ++ " Hz, n_pts = " ++ nat_text n ++ ", f_min = " ++ fmt_f 2 fmin ++ " Hz, f_max = " ++ fmt_f 2 fmax ++ " Hz")%string.
(** class_ground_motion.py:214-228 [Ground_Motion.__repr__]. *)
Definition motion_text (n : Z) (dt pga_g pga_gal pgv pgd t595 : f64) : string :=
  ("n_pts=" ++ nat_text n ++ ", dt=" ++ fmt_g 4 dt ++ "s, PGA=" ++ fmt_g 3 pga_g ++ "g=" ++ fmt_g 3 pga_gal ++ "gal, PGV=" ++ fmt_g 3 pgv ++ "cm/s, PGD=" ++ fmt_g 3 pgd
   ++ "cm, T5_95=" ++ fmt_g 3 t595 ++ "s")%string.

(** ** Names made of the time *)
(** A moment, to the second. *)
Record moment := mkmoment { t_year : Z; t_month : Z; t_day : Z; t_hour : Z; t_min : Z; t_sec : Z }.
(** helper_generic.py:25-45 [get_current_time] ([datetime.now()] is the argument; years of four digits). *)
Definition time_text (for_filename : bool) (t : moment) : string :=
  let colon := if for_filename then "-"%string else ":"%string in
  (dig 4 (t_year t) ++ "-" ++ dig 2 (t_month t) ++ "-" ++ dig 2 (t_day t) ++ (if for_filename then "_" else " ")
   ++ dig 2 (t_hour t) ++ colon ++ dig 2 (t_min t) ++ colon ++ dig 2 (t_sec t))%string.
