(** Model of the methods of Ground_Motion that send a motion through a transfer function or a
    soil profile (class_ground_motion.py:692-824 and 897-941) and of
    class_site_effect_adjustment.py.  Figures and printed warnings are left out. *)
From Coq Require Import Reals List Bool ZArith Lia Lra String.
From Coquelicot Require Import Complex.
From Coq Require Import List.
From Verif Require Import Base M_generic M_profile M_vs_profile M_motion M_dft M_amplify M_freqspec M_results M_sitefactors.
Import ListNotations.
Open Scope R_scope.

(** The end of each method: [Ground_Motion(response, unit='m')]; [None] when the response is
    not finite. *)
Definition motion_of (sh : sheap) (y : res (option signal)) : sheap * res (option motion) :=
  match y with
  | Err e => (sh, Err e)
  | Ok None => (sh, Ok None)
  | Ok (Some y) =>
      let '(sh1, m) := gm_init (sh ++ [y]) (List.length sh) U_m T_accel in
      (sh1, let! m := m in Ok (Some m))
  end.

(** class_ground_motion.py:692-779 [amplify_by_tf]. *)
Definition amplify_by_tf (sh : sheap) (m : motion) (tf : arg fspec) (taper extrap deconv : bool) : sheap * res (option motion) :=
  match tf with
  | Inst sp => motion_of sh (amplify_motion (sig_at sh (m_accel m)) (fs_freq sp) (TFComplex (fs_spec sp)) taper extrap deconv)
  | _ => (sh, Err TypeError)
  end.

(** class_ground_motion.py:781-824 [amplify] ([deconv] false) and 897-941 [deconvolve] ([deconv]
    true); [None] for the boundary is any other string. *)
Definition through_profile (deconv : bool) (h : heap) (sh : sheap) (m : motion) (p : arg vsobj) (elastic : option bool) : sheap * res (option motion) :=
  match p with
  | Inst p => motion_of sh (let! r := linear_site_resp (tbl h (o_tbl p)) (sig_at sh (m_accel m)) elastic deconv in Ok (fst r))
  | _ => (sh, Err TypeError)
  end.
Definition gm_amplify := through_profile false.
Definition gm_deconvolve := through_profile true.

(** ** class_site_effect_adjustment.py *)
(** Attributes. *)
Record adjustment := mkadj {
  ad_motion : motion; ad_Vs30 : num; ad_z1 : num; ad_PGA : R; ad_site : site; ad_method : method }.

(** helper_site_response.py:18-28 [calc_z1_from_Vs30] of a float that may not be finite. *)
Definition z1_from (v : num) : num :=
  match v with
  | Fin r => Fin (calc_z1_from_Vs30 r)
  | NaN => NaN
  | PInf => Fin 0
  | NInf => PInf
  end.

(** class_site_effect_adjustment.py, lines 66-108; [None] for [z1] is Python's None. *)
Definition adjust_init (m : arg motion) (v : parg) (z1 : option parg) (meth : method) (lenient : bool) : res adjustment :=
  match m with
  | Inst m =>
    match v, z1 with
    | POther, _ | _, Some POther => Err TypeError
    | PNum v, _ =>
      match meth with
      | nl_hh | eq_hh =>
        let z := match z1 with Some (PNum z) => z | _ => z1_from v end in
        let! s := site_new (PNum v) (PNum z) (PNum (Fin (pga_in_g m))) lenient in
        Ok (mkadj m v z (pga_in_g m) s meth)
      | _ => Err ValueError
      end
    end
  | _ => Err TypeError
  end.

Section Run.
Variable table : what -> string -> option (list (list R)).
Variable axis : what -> string -> option (list R).
Variable griddata : list (R * R * R) -> list R -> R * R * R -> num.

(** [Frequency_Spectrum(table)] of class_site_factors.py:196 and 232 for finite factors;
    [None] when one is not. *)
Fixpoint finite_rows (l : list (R * num)) : option (list (R * C)) :=
  match l with
  | [] => Some []
  | (f, Fin r) :: l' => match finite_rows l' with Some t => Some ((f, RtoC r) :: t) | None => None end
  | _ :: _ => None
  end.
Definition factor_spectrum (l : list (R * num)) : res (option fspec) :=
  match finite_rows l with
  | None => Ok None
  | Some rows => let! s := fs_init (CD2 rows) None None in Ok (Some s)
  end.

(** class_site_effect_adjustment.py, lines 110-200 [run]; line 140: [np.allclose] of arrays of different lengths raises unless
    one of them has one element, in which case [amplify_motion] raises. *)
Definition adjust_run (sh : sheap) (a : adjustment) : sheap * res (option motion) :=
  motion_of sh
    (let! ta := get_amplification table axis griddata (ad_site a) (ad_method a) true in
     let! af := factor_spectrum ta in
     let! tp := get_phase_shift table axis griddata (ad_site a) eq_hh in
     let! pf := factor_spectrum tp in
     match af, pf with
     | Some af, Some pf =>
       if Nat.eqb (List.length (fs_freq af)) (List.length (fs_freq pf)) || Nat.eqb (List.length (fs_freq af)) 1 || Nat.eqb (List.length (fs_freq pf)) 1
       then amplify_motion (sig_at sh (m_accel (ad_motion a))) (fs_freq af) (TFPolar (map Re (fs_spec af)) (map Re (fs_spec pf))) false true false
       else Err ValueError
     | _, _ => Ok None
     end).
End Run.
