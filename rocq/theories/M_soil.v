(** Model of the soil stress-strain laws: helper_mkz_model.py:10-57,
    helper_hh_model.py:10-159, and of the G/Gmax and damping curves computed from
    them (helper_site_response.py:2170-2296).  Real numbers replace float64;
    NaN and infinities produced by powers and divisions are kept ([num]). *)
From Coq Require Import Reals List Bool ZArith Lia Lra.
From Verif Require Import Base.
Import ListNotations.
Open Scope R_scope.

(** NumPy scalar division of finite numbers. *)
Definition ndiv (x y : R) : num :=
  if Reqb y 0 then (if Reqb x 0 then NaN else if Rltb 0 x then PInf else NInf) else Fin (x / y).

(** [x ** d] on float64 (finite arguments).  Negative base: NaN unless the
    exponent is an integer. *)
Definition npow (x d : R) : num :=
  if Rltb 0 x then Fin (Rpower x d)
  else if Reqb x 0 then
    (if Rltb 0 d then Fin 0 else if Reqb d 0 then Fin 1 else PInf)
  else if Reqb d (IZR (Int_part d)) then
    Fin (if Z.even (Int_part d) then Rpower (- x) d else - Rpower (- x) d)
  else NaN.

(** [(np.abs(g) / 0) ** s]: inf or, at zero strain, NaN raised to [s]. *)
Definition over_zero (g s : R) : num :=
  if Reqb s 0 then Fin 1 else if Reqb g 0 then NaN else if Rltb 0 s then PInf else Fin 0.

(** helper_mkz_model.py:54-55 [tau_MKZ] at one strain. *)
Definition tau_MKZ (gamma_ref beta s Gmax g : R) : num :=
  match (if Reqb gamma_ref 0 then over_zero g s else npow (Rabs g / gamma_ref) s) with
  | Fin q => ndiv (Gmax * g) (1 + beta * q)
  | PInf => if Reqb beta 0 then NaN else Fin 0   (* finite / (1 + beta * inf) *)
  | _ => NaN
  end.

(** helper_hh_model.py:51-54 [tau_FKZ] at one strain ([Tmax] not 0; a zero
    strength divides by zero and is outside the model). *)
Definition tau_FKZ (Gmax mu d Tmax g : R) : num :=
  match npow g d, npow (Rabs g) d with
  | Fin p, Fin q => ndiv (mu * Gmax * p) (1 + Gmax / Tmax * mu * q)
  | _, _ => NaN
  end.

(** [np.log10] on a positive number. *)
Definition log10 (x : R) : R := ln x / ln 10.

(** helper_hh_model.py:86-102 [transition_function] at one strain, for a > 0 and
    gamma_t > 0.  At zero strain log10 gives -inf and the first branch is taken. *)
Definition transition (a gamma_t g : R) : R :=
  if Reqb g 0 then 1
  else
    let iv := log10 (Rabs g / gamma_t) - 4039/1000 * Rpower a (- (1036/1000)) in
    let e := - a * iv in
    if Rltb 305 e then 1
    else if Rltb e (-305) then 0
    else 1 - 1 / (1 + Rpower 10 e).

(** helper_hh_model.py:82 [assert gamma_t > 0]. *)
Definition transition_function (a gamma_t : R) (gs : list R) : res (list R) :=
  assert! Rltb 0 gamma_t else AssertionError in Ok (map (transition a gamma_t) gs).

(** helper_hh_model.py:153-157 [tau_HH] at one strain; NaN and inf propagate. *)
Definition tau_HH_at (gamma_t a gamma_ref beta s Gmax mu Tmax d g : R) : num :=
  let w := transition a gamma_t g in
  match tau_MKZ gamma_ref beta s Gmax g, tau_FKZ Gmax mu d Tmax g with
  | Fin x, Fin y => Fin (w * x + (1 - w) * y)
  | _, _ => NaN
  end.

Definition tau_HH (gamma_t a gamma_ref beta s Gmax mu Tmax d : R) (gs : list R) : res (list num) :=
  let! _ := transition_function a gamma_t gs in
  Ok (map (tau_HH_at gamma_t a gamma_ref beta s Gmax mu Tmax d) gs).

(** helper_site_response.py:2279-2293 [calc_GGmax_from_stress_strain]; strains
    after the first are taken to be non-zero (NumPy would produce inf or NaN), and
    broadcasting of one-element arrays is not modelled. *)
Definition calc_GGmax (strain stress : list R) (Gmax : option R) : res (list R) :=
  let! e0 := get strain 0 in
  assert! negb (Reqb e0 0) else ValueError in
  let! gm := (match Gmax with Some g => Ok g | None => let! t0 := get stress 0 in Ok (t0 / e0) end) in
  assert! Nat.eqb (length strain) (length stress) else ValueError in
  Ok (map (fun te => fst te / snd te / gm) (combine stress strain)).

(** helper_site_response.py:2234-2247: the loop over strains; [pe], [pg] are the
    previous strain and modulus ratio and [area] the running area. *)
Fixpoint damping_scan (area pe pg : R) (eg : list (R * R)) : list R :=
  match eg with
  | [] => []
  | (e, g) :: rest =>
      let area := area + 5/10 * (pe * pg + e * g) * (e - pe) in
      (2 / PI * (2 * area / g / (e * e) - 1)) :: damping_scan area e g rest
  end.

(** helper_site_response.py:2207-2250 [calc_damping_from_stress_strain]; modulus
    ratios are taken to be non-zero. *)
Definition calc_damping (strain stress : list R) (Gmax : R) : res (list R) :=
  let! gg := calc_GGmax strain stress (Some Gmax) in
  match combine strain gg with
  | [] => Err IndexError
  | (e0, g0) :: rest =>
      let a0 := 5/10 * (e0 * g0) * e0 in
      let d0 := 2 / PI * (2 * a0 / g0 / (e0 * e0) - 1) in
      Ok (map (fun d => Rmax d 0) (d0 :: damping_scan a0 e0 g0 rest))
  end.
