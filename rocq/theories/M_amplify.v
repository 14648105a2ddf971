(** Model of phase unwrapping and of amplification in the frequency domain,
    helper_site_response.py:1463-1757 and 2031-2167.  The figures are not modelled. *)
From Coq Require Import Reals List Bool ZArith Lia Lra.
From Coquelicot Require Import Complex.
From Coq Require Import List.
From Verif Require Import Base M_generic M_profile M_vs_profile M_motion M_interp M_dft M_signal M_linear.
Import ListNotations.
Open Scope R_scope.

(** ** robust_unwrap, helper_site_response.py:2087-2167 (arrays of floats) *)

(** Lines 2137-2153: the loop looking for anomalies.  [i] is the index of the head of the
    list and [prev] the sample before it; [trough] starts at -1. *)
Fixpoint climbs (i : Z) (prev : R) (l : list R) (trough peak : Z) (flag : bool) : list (Z * Z) :=
  match l with
  | [] => []
  | x :: l' =>
      if Rleb x prev then
        (if flag && (trough + 1 <? peak)%Z then [(trough, peak)] else []) ++ climbs (i + 1) x l' i peak false
      else climbs (i + 1) x l' trough i true
  end.
Definition drawer (l : list R) : list (Z * Z) :=
  match l with [] => [] | x :: l' => climbs 1 x l' (-1) (-1) false end.

(** Python's indexing of a list of length [n] by a possibly negative index. *)
Definition pyidx (n : nat) (j : Z) : nat := if (j <? 0)%Z then Z.to_nat (Z.of_nat n + j) else Z.to_nat j.
Fixpoint set_nth {A} (k : nat) (v : A) (l : list A) : list A :=
  match l, k with
  | [], _ => []
  | _ :: l', O => v :: l'
  | x :: l', S k' => x :: set_nth k' v l'
  end.

(** Lines 2156-2162: the samples from the trough to the one before the peak are put on a
    line ending at -pi. *)
Definition move_pair (orig : list R) (cur : list R) (p : Z * Z) : list R :=
  let '(i1, i2) := p in
  let n := length orig in
  let len := IZR (i2 - i1 - 1) in
  let scale := - PI - nth (pyidx n i1) orig 0 in
  fold_left (fun c k => let j := (i1 + Z.of_nat k)%Z in
               set_nth (pyidx n j) (nth (pyidx n i1) c 0 + INR k / len * scale) c)
    (seq 0 (Z.to_nat (i2 - i1))) cur.
Definition moved (l : list R) : list R := fold_left (move_pair l) (drawer l) l.

(** [np.mod(x, 2 pi)] *)
Definition mod2pi (x : R) : R := x - IZR (Int_part (x / (2 * PI))) * (2 * PI).
(** [np.unwrap(p, discont)] with the period 2 pi: the correction of one step. *)
Definition phase_fix (discont dd : R) : R :=
  if Rltb (Rabs dd) discont then 0
  else
    let m := mod2pi (dd + PI) - PI in
    let m := if Reqb m (- PI) && Rltb 0 dd then PI else m in
    m - dd.
Definition np_unwrap (discont : R) (l : list R) : list R :=
  match l with
  | [] => []
  | x :: l' => x :: map (fun q => fst q + snd q) (combine l' (cumsum (map (phase_fix discont) (diffs l))))
  end.
Definition robust_unwrap (l : list R) (discont : R) : list R := np_unwrap discont (moved l).

(** ** Frequencies of a record, helper_site_response.py:2031-2084 *)
Record fgrid := mkfgrid { fg_df : R; fg_fmax : R; fg_n : nat; fg_half : nat; fg_f : list R }.
Definition half_len (n : nat) : nat := if Nat.even n then (n / 2 + 1)%nat else ((n + 1) / 2)%nat.
Definition get_freq_interval (s : signal) : res fgrid :=
  if Nat.leb (length s) 1 then Err ValueError
  else
    let! dt := first_step s in
    if Reqb dt 0 then Err ZeroDivisionError
    else
      let n := length s in
      let df := 1 / dt / INR n in
      let h := half_len n in
      let fmax := INR h * df in
      Ok (mkfgrid df fmax n h (linspace df fmax h)).

(** ** amplify_motion, helper_site_response.py:1463-1660 *)

(** [np.angle]; the angle of a negative real number is [pi] (a negative zero imaginary
    part is outside the model). *)
Definition carg (z : C) : R :=
  if Reqb (Cmod z) 0 then 0 else (if Rltb (Im z) 0 then -1 else 1) * acos (Re z / Cmod z).

(** The last element of [transfer_function_single_sided]. *)
Inductive tfarg := TFComplex (z : list C) | TFPolar (amp phase : list R) | TFOther.
Definition polar (f : list R) (a : tfarg) : res (list R * list R) :=
  match a with
  | TFComplex z => if Nat.eqb (length f) (length z) then Ok (map Cmod z, robust_unwrap (map carg z) PI) else Err AssertionError
  | TFPolar amp ph => if Nat.eqb (length amp) (length f) && Nat.eqb (length ph) (length f) then Ok (amp, ph) else Err AssertionError
  | TFOther => Err TypeError
  end.

Definition rmax1 (l : list R) : res R := match l with [] => Err ValueError | x :: l' => Ok (fold_left Rmax l' x) end.
Definition rmin1 (l : list R) : res R := match l with [] => Err ValueError | x :: l' => Ok (fold_left Rmin l' x) end.

(** [input_motion[::2, :]] *)
Fixpoint every_other {A} (l : list A) : list A :=
  match l with [] => [] | x :: l' => x :: match l' with [] => [] | _ :: l'' => every_other l'' end end.

(** Lines 1567-1578: the transfer function as a list of (frequency, (amplitude, phase))
    completed at both ends; [None] when the phase slope is a division by zero, which
    makes the whole result NaN. *)
Definition extrapolate (df fmax : R) (tab : list (R * (R * R))) : res (option (list (R * (R * R)))) :=
  let! hi := rmax1 (map fst tab) in
  let! tab1 :=
    (if Rltb hi fmax then
       match last tab (0, (0, 0)) with
       | (f, (a, p)) => Ok (if Reqb f 0 then None else Some (tab ++ [(fmax, (a, p / f * fmax))]))
       end
     else Ok (Some tab)) in
  match tab1 with
  | None => Ok None
  | Some tab1 => let! lo := rmin1 (map fst tab1) in Ok (Some (if Rltb df lo then (df, (1, 0)) :: tab1 else tab1))
  end.

(** Lines 1579-1593; the length of the record bounds the number of halvings. *)
Fixpoint downsample (fuel : nat) (hi : R) (s : signal) (g : fgrid) : res (signal * fgrid) :=
  if Rltb hi (fg_fmax g) then
    let s' := every_other s in
    if Nat.leb (length s') 1 then Err ValueError
    else
      let! g' := get_freq_interval s' in
      match fuel with O => Err ValueError | S fuel' => downsample fuel' hi s' g' end
  else Ok (s, g).

(** Lines 1596-1631: the double-sided transfer function. *)
Definition polar_c (a p : R) : C := Cmult (RtoC a) (cis p).
Definition set_real_last (l : list C) : list C := match rev l with [] => [] | z :: l' => rev (RtoC (Re z) :: l') end.
Definition set_real_first (l : list C) : list C := match l with [] => [] | z :: l' => RtoC (Re z) :: l' end.
Definition double_sided (n half : nat) (ss : list C) : list C :=
  let ss := set_real_first ss in
  let ss := if Nat.even n then set_real_last ss else ss in
  let upto := if Nat.even n then (half - 1)%nat else half in
  ss ++ map Cconj (rev (skipn 1 (firstn upto ss))).

(** Lines 1633-1653; a division by a vanishing value of the transfer function makes the
    whole result NaN or infinite: [None]. *)
Definition respond (deconv : bool) (A H : list C) : option (list R) :=
  if deconv && existsb czerob H then None
  else Some (map Re (idft (map (fun q => if deconv then Cdiv (fst q) (snd q) else Cmult (fst q) (snd q)) (combine A H)))).

Definition tf_double (g : fgrid) (tab : list (R * (R * R))) : res (list C) :=
  let! amp := np_interp (map (fun q => (fst q, fst (snd q))) tab) (fg_f g) in
  let! ph := np_interp (map (fun q => (fst q, snd (snd q))) tab) (fg_f g) in
  Ok (double_sided (fg_n g) (fg_half g) (map (fun q => polar_c (fst q) (snd q)) (combine amp ph))).

Definition amplify_motion (s : signal) (f : list R) (a : tfarg) (taper extrap deconv : bool) : res (option signal) :=
  let! (amp, ph) := polar f a in
  let tab := combine f (combine amp ph) in
  let! g := get_freq_interval s in
  let! r :=
    (if extrap then let! t := extrapolate (fg_df g) (fg_fmax g) tab in Ok (s, g, t)
     else let! hi := rmax1 f in let! (s', g') := downsample (length s) hi s g in Ok (s', g', Some tab)) in
  let '(s, g, tab) := r in
  match tab with
  | None => Ok None
  | Some tab =>
    let! H := tf_double g tab in
    let! x := (if taper then taper_Tukey (T1 (vals s)) (1 / 20) else Ok (vals s)) in
    Ok (match respond deconv (dft (map RtoC x)) H with None => None | Some y => Some (combine (times s) y) end)
  end.

(** ** linear_site_resp, helper_site_response.py:1663-1757 (arrays, not file names).
    [None] for the boundary stands for any other string. *)
Definition linear_site_resp (t : table) (s : signal) (elastic : option bool) (deconv : bool) : res (option signal * (list R * list C)) :=
  let! g := get_freq_interval s in
  let! r := linear_tf t (fg_df g * (105 / 100)) (fg_fmax g * (105 / 100)) in
  match elastic with
  | None => Err ValueError
  | Some e =>
    let z := if e then lr_TF_ro r else lr_TF_bh r in
    let! y := amplify_motion s (lr_freq r) (TFComplex z) false true deconv in
    Ok (y, (lr_freq r, z))
  end.
