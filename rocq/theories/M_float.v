(** Model, in IEEE 754 double precision, of the functions whose outcome depends on rounding:
    layer thicknesses and depths, sums, numbers of samples and layers, peaks and scaling, unit
    conversion, integration and Arias intensity.  The same functions are modelled over the
    real numbers elsewhere; here every operation of the code is the rounded one (to nearest,
    ties to even), with infinities and NaN.  All NaNs are taken to be one. *)
From Coq Require Import Reals List Bool ZArith Permutation.
From Flocq Require Import Core IEEE754.BinarySingleNaN.
From Verif Require Import Base.
Import ListNotations.

(** The numbers: numpy's float64 and Python's float. *)
Definition f64 : Type := binary_float 53 1024.
Definition prec_ok : Prec_gt_0 53 := eq_refl.
Definition emax_ok : Prec_lt_emax 53 1024 := eq_refl.

(** The operations +, -, *, /, abs and the comparisons. *)
Definition fadd (x y : f64) : f64 := @Bplus 53 1024 prec_ok emax_ok mode_NE x y.
Definition fsub (x y : f64) : f64 := @Bminus 53 1024 prec_ok emax_ok mode_NE x y.
Definition fmul (x y : f64) : f64 := @Bmult 53 1024 prec_ok emax_ok mode_NE x y.
Definition fdiv (x y : f64) : f64 := @Bdiv 53 1024 prec_ok emax_ok mode_NE x y.
Definition fabs (x : f64) : f64 := @Babs 53 1024 x.
Definition fle (x y : f64) : bool := @Bleb 53 1024 x y.
Definition flt (x y : f64) : bool := @Bltb 53 1024 x y.
Definition feq (x y : f64) : bool := @Beqb 53 1024 x y.
Definition fnan (x : f64) : bool := @is_nan 53 1024 x.
Definition fin (x : f64) : bool := @is_finite 53 1024 x.

(** Literals: m * 2^e, rounded if needed. *)
Definition lit (m e : Z) : f64 := @binary_normalize 53 1024 prec_ok emax_ok mode_NE m e false.
Definition f0 : f64 := B754_zero false.
Definition f2 : f64 := lit 1 1.
Definition f100 : f64 := lit 100 0.
(** 9.81 and numpy's pi, as the nearest doubles. *)
Definition g981 : f64 := lit 5522539043063071 (-49).
Definition fpi : f64 := lit 7074237752028440 (-51).

(** Python's int() of a float: towards zero; NaN and infinities raise. *)
Definition fint (x : f64) : res Z :=
  if fnan x then Err ValueError
  else if fin x then Ok (@Btrunc 53 1024 x)
  else Err OverflowError.
(** np.ceil. *)
Definition fceil (x : f64) : f64 := @Bnearbyint 53 1024 emax_ok mode_UP x.

(** helper_site_response.py:1156-1167, the loop of [thk2dep] filling [z_top] (the last thickness is not
    used). *)
Fixpoint tops (acc : f64) (thk : list f64) : list f64 :=
  match thk with
  | [] => []
  | t :: r => acc :: tops (fadd acc t) r
  end.
(** Lines 1160-1167: middle depths; the last one only if the last thickness is not 0. *)
Fixpoint mids (acc : f64) (thk : list f64) : list f64 :=
  match thk with
  | [] => []
  | t :: r =>
      match r with
      | [] => if feq t f0 then [] else [fadd acc (fdiv t f2)]
      | _ => fadd acc (fdiv t f2) :: mids (fadd acc t) r
      end
  end.
(** helper_site_response.py:1137-1172 [thk2dep] of a one-dimensional array; of an empty one,
    [thk[-1]] raises IndexError. *)
Definition thk2dep_f (thk : list f64) (midpoint : bool) : res (list f64) :=
  match thk with
  | [] => Err IndexError
  | _ => Ok (if midpoint then mids f0 thk else tops f0 thk)
  end.

(** helper_site_response.py:1175-1218 [dep2thk]; the half space gets thickness 0. *)
Fixpoint diffs_f (d : list f64) : list f64 :=
  match d with
  | [] => []
  | x :: r => match r with [] => [] | y :: _ => fsub y x :: diffs_f r end
  end.
Definition dep2thk_f (d : list f64) (include_halfspace : bool) : res (list f64) :=
  match d with
  | [] => Err IndexError
  | x :: _ => if negb (feq x f0) then Err ValueError
              else Ok (if include_halfspace then diffs_f d ++ [f0] else diffs_f d)
  end.

(** np.sum: numpy adds the entries in an order and grouping of its own choice (pairwise
    summation); the model allows every one.  [sums l s]: s is a possible sum of l. *)
Inductive sums : list f64 -> f64 -> Prop :=
| sums_nil : sums [] f0
| sums_one : forall x, sums [x] x
| sums_app : forall a b x y, sums a x -> sums b y -> sums (a ++ b) (fadd x y)
| sums_perm : forall a b x, Permutation a b -> sums a x -> sums b x.

(** np.cumsum: from left to right. *)
Fixpoint cumsum_from (acc : f64) (l : list f64) : list f64 :=
  match l with
  | [] => []
  | x :: r => let s := fadd acc x in s :: cumsum_from s r
  end.
Definition cumsum_f (l : list f64) : list f64 :=
  match l with [] => [] | x :: r => x :: cumsum_from x r end.
(** helper_site_response.py:398-400 [num_int]: velocity and displacement. *)
Definition integrate_f (dt : f64) (a : list f64) : list f64 := map (fun x => fmul x dt) (cumsum_f a).
Definition num_int_f (dt : f64) (a : list f64) : list f64 * list f64 :=
  let v := integrate_f dt a in (v, integrate_f dt v).

(** class_ground_motion.py:636-643, one of the two sample numbers of [truncate]: [extend] is already applied;
    int(t / dt), and then not below 0, not above the number of samples. *)
Definition sample_no (t dt : f64) : res Z := fint (fdiv t dt).
Definition cut_f (t1 t2 dt : f64) (npts : Z) : res (Z * Z) :=
  let! n1 := sample_no t1 dt in
  let! n2 := sample_no t2 dt in
  Ok (if (n1 <? 0)%Z then 0%Z else n1, if (npts <? n2)%Z then npts else n2).

(** class_Vs_profile.py:566, the number of layers of [query_Vs_given_thk]: int(ceil(z_max / thk)). *)
Definition layer_count (z_max thk : f64) : res Z := fint (fceil (fdiv z_max thk)).

(** np.max of the absolute values (class_ground_motion.py:198): NaN if there is one; of an
    empty array, ValueError. *)
Definition fmax (x y : f64) : f64 :=
  if fnan x then x else if fnan y then y else if fle x y then y else x.
Definition peak_f (a : list f64) : res f64 :=
  match a with [] => Err ValueError | x :: r => Ok (fold_left fmax (map fabs r) (fabs x)) end.

(** class_ground_motion.py:176-179: conversion to metres, and 202-206: of the peaks. *)
Definition from_cm (x : f64) : f64 := fdiv x f100.
Definition from_g (x : f64) : f64 := fmul x g981.
Definition to_cm (x : f64) : f64 := fmul x f100.
Definition to_g (x : f64) : f64 := fdiv x g981.

(** class_ground_motion.py:554-562 [scale_motion]: the scaled accelerations. *)
Definition scale_f (factor : f64) (target : option f64) (a : list f64) : res (list f64) :=
  let! f := match target with
            | None => Ok factor
            | Some T => let! p := peak_f a in Ok (fdiv T (to_g p))
            end in
  Ok (map (fun x => fmul x f) a).

(** class_ground_motion.py:499-515 [__calc_Arias]: [c] is np.pi / (2 * g); [a ** 2.0] is a * a; the
    intensity and the normalised intensity. *)
Definition arias_c : f64 := fdiv fpi (fmul f2 g981).
Fixpoint arias_from (acc dt : f64) (a : list f64) : list f64 :=
  match a with
  | [] => []
  | x :: r => acc :: arias_from (fadd acc (fmul (fmul arias_c (fmul x x)) dt)) dt r
  end.
Definition arias_f (dt : f64) (a : list f64) : list f64 := arias_from f0 dt a.
Definition arias_norm_f (dt : f64) (a : list f64) : list f64 :=
  let Ia := arias_f dt a in map (fun x => fdiv x (last Ia f0)) Ia.
