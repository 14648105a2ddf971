(** Model of the curve classes (class_curves.py:78-114, 243-270, 332-368, 584-619)
    and of the data preparation of damping fits (helper_hh_model.py:229-286,
    helper_mkz_model.py:127-175, helper_site_response.py:2473-2520).  The curve
    matrices (class_curves.py:950-985, 1425-1454, 1560-1620) are in M_curvemat.

    Arrays live in a heap because curve objects keep the caller's array.  The data
    are finite real two-column arrays of float dtype (other arguments are rejected
    by [check_two_column_format], see M_generic). *)
From Coq Require Import Reals List Bool ZArith String Lia Lra.
From Verif Require Import Base M_generic M_profile M_vs_profile M_motion M_soil M_interp M_params.
Import ListNotations.
Open Scope R_scope.
Open Scope list_scope.

(** Unit arguments; [SBad] etc. is any other value. *)
Inductive sunit := S1 | SPct | SBad.
Inductive tunit := TPa | TkPa | TMPa | TGPa | TBad.

(** [interpolate=True] with (min_strain, max_strain, n_pts, log_scale). *)
Definition iopt := option (R * R * nat * bool).

(** A curve object: [c_raw] is the location of [raw_data], [c_data] of the array
    whose columns are [strain] and [values]. *)
Record curve := mkcurve { c_raw : nat; c_data : nat }.
Definition strain (h : sheap) (c : curve) : list R := times (sig_at h (c_data c)).
Definition values (h : sheap) (c : curve) : list R := vals (sig_at h (c_data c)).

Definition neg_cell (p : R * R) : bool := Rltb (fst p) 0 || Rltb (snd p) 0.

(** [strain *= k] and [values *= k] on the columns of an array. *)
Definition scale0 (k : R) (s : signal) : signal := map (fun p => (fst p * k, snd p)) s.
Definition scale1 (k : R) (s : signal) : signal := map (fun p => (fst p, snd p * k)) s.
Definition upd (h : sheap) (l : nat) (f : signal -> signal) : sheap := set_nth l (f (sig_at h l)) h.

(** class_curves.py:78-114 [Curve.__init__]. *)
Definition curve_init (h : sheap) (loc : nat) (su : sunit) (it : iopt) (chk : bool) : sheap * res curve :=
  let d := sig_at h loc in
  if chk && existsb neg_cell d then (h, Err ValueError)
  else
    let fetched : sheap * res nat :=
      match it with
      | None => (h, Ok loc)
      | Some (lo, hi, n, lg) =>
          match interpolate lo hi n d lg with
          | Ok s => (h ++ [s], Ok (List.length h))
          | Err e => (h, Err e)
          end
      end in
    match fetched with
    | (h1, Err e) => (h1, Err e)
    | (h1, Ok l) =>
        match su with
        | SBad => (h1, Err ValueError)
        | SPct => (h1, Ok (mkcurve loc l))
        | S1 => (upd h1 l (scale0 100), Ok (mkcurve loc l))
        end
    end.

(** class_curves.py:243-270 [GGmax_Curve.__init__]. *)
Definition ggmax_init (h : sheap) (loc : nat) (su : sunit) (it : iopt) (chk : bool) : sheap * res curve :=
  match curve_init h loc su it chk with
  | (h1, Err e) => (h1, Err e)
  | (h1, Ok c) =>
      if chk && (existsb (fun v => Rltb 1 v) (values h1 c) || existsb (fun v => Rltb v 0) (values h1 c))
      then (h1, Err ValueError) else (h1, Ok c)
  end.

(** class_curves.py:332-368 [Damping_Curve.__init__]. *)
Definition damping_init (h : sheap) (loc : nat) (su du : sunit) (it : iopt) (chk : bool) : sheap * res curve :=
  match curve_init h loc su it chk with
  | (h1, Err e) => (h1, Err e)
  | (h1, Ok c) =>
      match du with
      | SBad => (h1, Err ValueError)
      | _ =>
          let h2 := match du with S1 => upd h1 (c_data c) (scale1 100) | _ => h1 end in
          if chk && (existsb (fun v => Rltb 100 v) (values h2 c) || existsb (fun v => Rltb v 0) (values h2 c))
          then (h2, Err ValueError) else (h2, Ok c)
      end
  end.

(** class_curves.py:584-619 [Stress_Curve.__init__]; it never interpolates (the
    interpolation arguments are passed on without [interpolate=True]). *)
Definition stress_init (h : sheap) (loc : nat) (su : sunit) (tu : tunit) (chk : bool) : sheap * res curve :=
  match curve_init h loc su None chk with
  | (h1, Err e) => (h1, Err e)
  | (h1, Ok c) =>
      match tu with
      | TBad => (h1, Err ValueError)
      | TPa => (upd h1 (c_data c) (scale1 (/ 1000)), Ok c)
      | TkPa => (h1, Ok c)
      | TMPa => (upd h1 (c_data c) (scale1 1000), Ok c)
      | TGPa => (upd h1 (c_data c) (scale1 1000000), Ok c)
      end
  end.

(** ** Fitting damping curves *)
Section Fit.
(** The optimiser [sr.ga_optimization] with its fixed options and seed: an
    unspecified function of the data it is given (9 numbers for HH, 3 for MKZ). *)
Variable opt : list (R * R) -> list R.

(** helper_hh_model.py:229-248, helper_mkz_model.py:127-143: check, offset by the
    first damping in place, convert to unit 1, resample at 122 strains. *)
Definition dense_strain : list R := logspace (-6) (-1) 122.
Definition fit_prepare (h : sheap) (loc : nat) : sheap * res (list (R * R)) :=
  let d := sig_at h loc in
  if existsb neg_cell d then (h, Err ValueError)
  else match d with
       | [] => (h, Err IndexError)
       | (_, init) :: _ =>
           let h1 := upd h loc (map (fun p => (fst p, snd p - init))) in
           let unit1 := map (fun p => (fst p / 100, snd p / 100)) (sig_at h1 loc) in
           (h1, let! ys := np_interp unit1 dense_strain in Ok (combine dense_strain ys))
       end.

(** helper_hh_model.py:254-286. *)
Definition fit_HH (h : sheap) (loc : nat) : sheap * res dict :=
  let '(h1, r) := fit_prepare h loc in
  (h1, let! data := r in
       Ok (map (fun ki => (fst ki, Rpower 10 (nth (snd ki) (opt data) 0))) (combine HH_keys (seq 0 9)))).

(** helper_mkz_model.py:149-175. *)
Definition fit_H4 (h : sheap) (loc : nat) : sheap * res dict :=
  let '(h1, r) := fit_prepare h loc in
  (h1, let! data := r in
       Ok [("gamma_ref"%string, Rpower 10 (nth 0 (opt data) 0)); ("s"%string, Rpower 10 (nth 1 (opt data) 0));
           ("beta"%string, Rpower 10 (nth 2 (opt data) 0)); ("Gmax"%string, 1)]).

(** helper_site_response.py:2473-2520 [fit_all_damping_curves] on a list of
    arrays, with either fitting function.  In parallel mode every layer is fitted
    by a worker process on a pickled copy of its array. *)
Definition fitter := sheap -> nat -> sheap * res dict.
Fixpoint fit_serial (fit : fitter) (h : sheap) (locs : list nat) : sheap * res (list dict) :=
  match locs with
  | [] => (h, Ok [])
  | l :: locs' =>
      match fit h l with
      | (h1, Err e) => (h1, Err e)
      | (h1, Ok p) => let '(h2, r) := fit_serial fit h1 locs' in (h2, let! ps := r in Ok (p :: ps))
      end
  end.
Definition fit_all (fit : fitter) (parallel : bool) (h : sheap) (locs : list nat) : sheap * res (list dict) :=
  if existsb (fun l => existsb neg_cell (sig_at h l)) locs then (h, Err ValueError)
  else if parallel then (h, map_res (fun l => snd (fit h l)) locs)
  else fit_serial fit h locs.
End Fit.
