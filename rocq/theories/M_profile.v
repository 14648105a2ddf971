(** Model of the profile routines of PySeismoSoil/helper_site_response.py
    (lines 18-261, 743-904, 1042-1218).  Profiles are lists of layers; numbers
    are exact reals. *)
From Coq Require Import Reals List Bool ZArith Lia Lra.
From Verif Require Import Base.
Import ListNotations.
Open Scope R_scope.

(** helper_site_response.py:18-28 [calc_z1_from_Vs30] (scalar argument). *)
Definition calc_z1_from_Vs30 (Vs30 : R) : R :=
  140511 / 1000 * exp (- (303 / 100000) * Vs30).

(** helper_site_response.py:1157-1163, the [z_top] loop: depths of layer tops,
    started at [z] (the last thickness is not used). *)
Fixpoint z_top_from (z : R) (thk : list R) : list R :=
  match thk with
  | [] => []
  | h :: thk' => z :: z_top_from (z + h) thk'
  end.

(** helper_site_response.py:1157-1168: mid-points of all layers. *)
Fixpoint z_mid_from (z : R) (thk : list R) : list R :=
  match thk with
  | [] => []
  | h :: thk' => (z + h / 2) :: z_mid_from (z + h) thk'
  end.

(** helper_site_response.py:1137-1172 [thk2dep].  [thk[-1]] on an empty array is
    an IndexError; a zero last thickness removes the last mid-point (line 1166). *)
Definition thk2dep (thk : list R) (midpoint : bool) : res (list R) :=
  let! h_last := last_res thk in
  if negb midpoint then Ok (z_top_from 0 thk)
  else if Reqb h_last 0 then Ok (removelast (z_mid_from 0 thk))
  else Ok (z_mid_from 0 thk).

(** helper_site_response.py:1208-1213: successive differences followed by 0. *)
Fixpoint diffs0 (z : list R) : list R :=
  match z with
  | [] => []
  | a :: z' => match z' with [] => [0] | b :: _ => (b - a) :: diffs0 z' end
  end.

(** helper_site_response.py:1175-1218 [dep2thk]. *)
Definition dep2thk (z : list R) (include_halfspace : bool) : res (list R) :=
  let! z0 := get z 0 in
  if negb (Reqb z0 0) then Err ValueError
  else if include_halfspace then Ok (diffs0 z) else Ok (removelast (diffs0 z)).

(** A layer: thickness and shear-wave velocity (first two columns). *)
Definition layer := (R * R)%type.
Definition thk_of (p : list layer) : list R := map fst p.
Definition vs_of (p : list layer) : list R := map snd p.

(** [np.searchsorted(a, v, side='right')] on a sorted array: the number of
    entries not larger than [v] (helper_site_response.py:193).  NumPy's
    behaviour on an unsorted array is not modelled. *)
Fixpoint searchsorted_right (a : list R) (v : R) : nat :=
  match a with
  | [] => 0
  | x :: a' => if Rleb x v then S (searchsorted_right a' v) else 0
  end.

(** helper_site_response.py:186-197: the index computed for one depth. *)
Definition query_one (p : list layer) (dep_ref : list R) (d : R) : res R :=
  get (vs_of p) (searchsorted_right dep_ref d - 1).

(** helper_site_response.py:125-197 [query_Vs_at_depth] for an array of depths
    ([depth] flags are the last three components; a scalar is a one-element
    array with [is_scalar = true]).  The format check of line 180 is assumed to
    have passed (all cells finite, two columns or more). *)
Definition query_Vs_at_depth (p : list layer) (depths : list R) : res (list R) :=
  if existsb (fun d => Rltb d 0) depths then Err ValueError
  else
    let! dep_ref := thk2dep (thk_of p) false in
    map_res (query_one p dep_ref) depths.

(** helper_site_response.py:157-174: the flags describing [depth]. *)
Fixpoint has_adjacent_dup (l : list R) : bool :=
  match l with
  | [] => false
  | a :: l' => match l' with [] => false | b :: _ => Reqb (b - a) 0 || has_adjacent_dup l' end
  end.
Fixpoint is_sorted (l : list R) : bool :=
  match l with
  | [] => true
  | a :: l' => match l' with [] => true | b :: _ => Rleb 0 (b - a) && is_sorted l' end
  end.

(** The [thk] argument of line 200: a scalar with a layer count or an array. *)
Inductive thk_arg : Type :=
| ThkScalar (h : R) (n_layers : option Z)
| ThkArray (l : list R).

(** helper_site_response.py:200-261 [query_Vs_given_thk]. *)
Definition query_Vs_given_thk (p : list layer) (thk : thk_arg) (at_midpoint : bool)
    : res (list R * list R) :=
  let! thk_array :=
    match thk with
    | ThkArray l => Ok l
    | ThkScalar h None => Err TypeError
    | ThkScalar h (Some n) => if Z.leb n 0 then Err ValueError else Ok (repeat h (Z.to_nat n))
    end in
  let! depth_array := thk2dep thk_array at_midpoint in
  let! vs := query_Vs_at_depth p depth_array in
  Ok (vs, thk_array).

(** helper_site_response.py:877-886: the accumulation loop of [calc_VsZ]; [dep]
    is the depth of the top of the current layer, [acc] is [cumul_sl].  Both
    [if]s of the loop body are kept: exactly one of them fires. *)
Fixpoint cumul_slowness (p : list layer) (dep Z acc : R) : R :=
  match p with
  | [] => acc
  | (h, vs) :: p' =>
      let bottom := dep + h in
      let acc1 := if Rltb bottom Z then acc + (1 / vs) * h else acc in
      if Rleb Z bottom then acc1 + (1 / vs) * (h - (bottom - Z))
      else cumul_slowness p' bottom Z acc1
  end.

(** helper_site_response.py:837-904 [calc_VsZ]; an option other than 1 or 2
    leaves [VsZ] unbound.  Division by zero is excluded by hypotheses where it
    matters. *)
Definition calc_VsZ (p : list layer) (Z : R) (option_ : nat) : res R :=
  let total := rsum (thk_of p) in
  let cumul := cumul_slowness p 0 Z 0 in
  match option_ with
  | 1%nat =>
      if Rltb total Z then
        let! vs_last := last_res (vs_of p) in
        Ok (Z / (cumul + (1 / vs_last) * (Z - total)))
      else Ok (Z / cumul)
  | 2%nat => Ok (Rmin total Z / cumul)
  | _ => Err UnboundLocalError
  end.

(** helper_site_response.py:907-943 [calc_Vs30]. *)
Definition calc_Vs30 (p : list layer) (option_ : nat) : res R := calc_VsZ p 30 option_.

(** helper_site_response.py:1066-1074: the scan of [calc_basin_depth]. *)
Fixpoint basin_scan (p : list layer) (dep : list R) (bedrock_Vs total : R) : R :=
  match p, dep with
  | (_, vs) :: p', z :: dep' => if Rleb bedrock_Vs vs then z else basin_scan p' dep' bedrock_Vs total
  | _, _ => total
  end.

(** helper_site_response.py:1042-1076 [calc_basin_depth]. *)
Definition calc_basin_depth (p : list layer) (bedrock_Vs : R) : res R :=
  let! dep := thk2dep (thk_of p) false in
  Ok (basin_scan p dep bedrock_Vs (rsum (thk_of p))).

(** helper_site_response.py:1079-1093 [calc_z1]. *)
Definition calc_z1 (p : list layer) : res R := calc_basin_depth p 1000.

(** ** stratify, helper_site_response.py:31-122 *)

(** A row of a profile: thickness, Vs and the remaining columns (none for a
    two-column profile; damping, density and material number otherwise). *)
Record row : Type := mkrow { r_h : R; r_vs : R; r_rest : list R }.

(** [np.ceil] and the distance used by [np.allclose(np.round(q), q)]
    (default tolerances rtol=1e-5, atol=1e-8).  [np.round] rounds halves to
    even; here halves are rounded up, which is indistinguishable because only
    the distance to the rounded value is used. *)
Definition ceil (q : R) : Z := (- Int_part (- q))%Z.
Definition round (q : R) : Z := Int_part (q + / 2).
Definition allclose_round (q : R) : bool :=
  Rleb (Rabs (IZR (round q) - q)) (/ 10 ^ 8 + / 10 ^ 5 * Rabs q).

(** helper_site_response.py:87-107: the sub-layers of one layer.  In the Python
    code the five columns are extended in lock step; here whole rows are. *)
Definition sublayers (r : row) : list row :=
  let h_temp := r_vs r / 225 in
  if Rleb (r_h r) h_temp then [r]
  else
    let q := r_h r / h_temp in
    let n := Z.to_nat (ceil q) in
    let h' := if allclose_round q then h_temp else r_h r / INR n in
    repeat (mkrow h' (r_vs r) (r_rest r)) n.

(** helper_site_response.py:31-122 [stratify], after the format check of line
    48 (an empty profile was rejected there with an IndexError). *)
Definition stratify (p : list row) : res (list row) :=
  let! lst := last_res p in
  if Reqb (r_h lst) 0 then
    Ok (flat_map sublayers (removelast p) ++ [mkrow 0 (r_vs lst) (r_rest lst)])
  else Ok (flat_map sublayers p).

(** ** get_xi_rho, helper_site_response.py:743-834 *)
Definition xi_formula_1 (vs : R) : R :=
  if Rltb vs 250 then 5/100 else if Rltb vs 750 then 2/100 else 1/100.

Definition Qs_formula_2 (vs : R) : R :=
  let v := vs / 1000 in
  let q := 105/10 - 16 * v + 153 * v^2 - 103 * v^3 + 347/10 * v^4 - 529/100 * v^5 + 31/100 * v^6 in
  if Reqb q 0 then 5/10 else q.

Definition Qs_formula_3 (vs : R) : R :=
  if Rleb vs 1000 then 6/100 * vs
  else if Rleb vs 2000 then 14/100 * vs else 16/100 * vs.

Definition rho_rule (vs : R) : R :=
  if Rltb vs 200 then 1600 else if Rltb vs 800 then 1800 else 2000.

(** The dispatch on [formula_type]; any other value leaves [xi] at its initial
    zeros (line 788) and raises nothing. *)
Definition get_xi_rho (Vs : list R) (formula_type : nat) : list R * list R :=
  (match formula_type with
   | 1%nat => map xi_formula_1 Vs
   | 2%nat => map (fun v => 1 / (2 * Qs_formula_2 v)) Vs
   | 3%nat => map (fun v => 1 / (2 * Qs_formula_3 v)) Vs
   | _ => map (fun _ => 0) Vs
   end, map rho_rule Vs).

(** ** _gen_profile_plot_array, helper_site_response.py:1096-1134 *)
Definition gen_profile_plot_array (thk vs : list R) (zmax : R) : res (list R * list R) :=
  let! dep := thk2dep thk false in
  let N := length vs in
  let! x := map_res (fun i => get vs (i / 2)) (seq 0 (2 * N)) in
  let! y := map_res (fun i => if Nat.ltb (i + 1) (2 * N) then get dep ((i + 1) / 2) else Ok zmax)
                    (seq 0 (2 * N)) in
  Ok (x, y).
