(** Model of PySeismoSoil/class_svm.py (the sediment velocity model): construction of
    the smooth profile, discretisation and randomisation.  Numbers are exact reals;
    plotting and printing are dropped.  [Vs30] is a positive number (a negative one
    raised to a fractional power is a complex number or NaN in the code). *)
From Coq Require Import Reals List Bool ZArith Lia Lra.
From Verif Require Import Base M_generic M_profile M_vs_profile.
Import ListNotations.
Open Scope R_scope.

(** ** The smooth profile, class_svm.py:96-176 *)
Definition vs0 (v : R) : R := - (21688 / 100000000) * v ^ 2 + 5182 / 10000 * v + 69452 / 1000.
Definition svm_k (v : R) : R := exp (- (5967 / 100) * Rpower v (- (2722 / 10000)) + 11132 / 1000).
Definition svm_n (v : R) : R :=
  Rmax 1 (4110 / 1000 * exp (- (10521 / 100000000) * v) + - (10827 / 1000) * exp (- (76187 / 10000000) * v)).

(** Lines 109 and 161: [np.arange(0.0, z1 - thk_addl_layer, thk)]. *)
Definition svm_thk : R := 1 / 10.
Definition svm_top : R := 5 / 2 - svm_thk.
Definition svm_count (z1 : R) : nat := Z.to_nat (ceil ((z1 - svm_top - 0) / svm_thk)).
Definition svm_depths (z1 : R) : list R := map (fun i => 0 + INR i * svm_thk) (seq 0 (svm_count z1)).

(** Lines 154-167 (velocities), 164 (thicknesses), 169-176 (the stacked profile). *)
Definition svm_analyt (v z1 : R) : list R :=
  map (fun z => vs0 v * Rpower (1 + svm_k v * z) (1 / svm_n v)) (svm_depths z1).
Definition svm_temp (v z1 : R) : res (list layer) :=
  let! th := dep2thk (svm_depths z1) true in
  let! v0 := get (svm_analyt v z1) 0 in
  Ok ((svm_top, v0) :: combine th (svm_analyt v z1)).

(** Lines 149-204: the loop over trial values of Vs30; [None]: not finished after
    [fuel] rounds. *)
Fixpoint svm_search (fuel : nat) (target z1 v : R) : option (res R) :=
  match fuel with
  | O => None
  | S f =>
      match (let! p := svm_temp v z1 in calc_Vs30 p 1) with
      | Err e => Some (Err e)
      | Ok actual =>
          if Rleb (target - 10) actual && Rleb actual (target + 10) then Some (Ok v)
          else
            let v' := v - (actual - target) / 5 in
            if Rltb v' 130 || Rltb 1000 v' then Some (Ok v) else svm_search f target z1 v'
      end
  end.
Definition svm_trial (iterate : bool) (fuel : nat) (target z1 : R) : option (res R) :=
  if iterate then svm_search fuel target z1 target else Some (Ok target).

(** The argument [Vs_cap] of line 90. *)
Inductive capspec := NoCap | CapTrue | Cap (c : R).

(** [np.where(l > x)[0][0]], lines 224-235. *)
Fixpoint first_above (x : R) (l : list R) : option nat :=
  match l with
  | [] => None
  | y :: l' => if Rltb x y then Some 0%nat else match first_above x l' with Some i => Some (S i) | None => None end
  end.

(** Lines 223-243: the ramp towards the cap. *)
Definition svm_ramp (c eta : R) (N j i : nat) : R :=
  c * eta + c * (1 - eta) / INR (N - j) * INR (i - j).
Definition svm_capped (c eta : R) (l : list R) : res (list R) :=
  match first_above c l with
  | None => Ok l
  | Some _ =>
      match first_above (c * eta) l with
      | None => Err IndexError
      | Some j => Ok (firstn j l ++ map (svm_ramp c eta (length l) j) (seq j (length l - j)))
      end
  end.

(** Lines 208-257: the profile, as a list of (thickness, Vs). *)
Definition svm_deep (v z1 : R) (c : option R) (eta : R) : res (list layer) :=
  match c with
  | None => svm_temp v z1
  | Some c =>
      let! th := dep2thk (svm_depths z1) true in
      let! v0 := get (svm_analyt v z1) 0 in
      let! vs := svm_capped c eta (svm_analyt v z1) in
      Ok ((svm_top, v0) :: combine (removelast th ++ [0]) (removelast vs ++ [c]))
  end.
Definition cap_value (c : capspec) : option R :=
  match c with NoCap => None | CapTrue => Some 1000 | Cap c => Some c end.

(** Lines 145-257. *)
Definition svm_profile (iterate : bool) (fuel : nat) (target z1 : R) (cap : capspec) (eta : R) : option (res (list layer)) :=
  if Rleb z1 (5 / 2) then Some (Ok [(z1, vs0 target); (0, 1000)])
  else match svm_trial iterate fuel target z1 with
       | None => None
       | Some (Err e) => Some (Err e)
       | Some (Ok v) => Some (svm_deep v z1 (cap_value cap) eta)
       end.

(** Lines 274-279: [bedrock_Vs].  On the branch of line 145 the argument [True] has not
    been replaced by a number: it is the integer 1. *)
Definition bedrock_attr (z1 : R) (cap : capspec) : option R :=
  match cap with
  | NoCap => None
  | Cap c => Some c
  | CapTrue => if Rleb z1 (5 / 2) then Some 1 else Some 1000
  end.

(** The attributes of lines 270-279; [s_arr] is the location of [_base_profile]. *)
Record svm := mksvm { s_Vs30 : R; s_z1 : R; s_arr : nat; s_obj : vsobj; s_bedrock : option R }.

Definition table_of_layers (p : list layer) : table := mktable false 2 (map (fun l => [fst l; snd l]) p).

(** Lines 85-279; the warning of line 98 and the figure of line 263 are dropped. *)
Definition svm_init (h : heap) (target : R) (z1 : option R) (cap : capspec) (eta : R) (iterate : bool) (fuel : nat)
    : option (heap * res svm) :=
  if Rleb eta 0 || Rltb 1 eta then Some (h, Err ValueError)
  else
    let z1 := match z1 with None => calc_z1_from_Vs30 target | Some z => z end in
    match svm_profile iterate fuel target z1 cap eta with
    | None => None
    | Some (Err e) => Some (h, Err e)
    | Some (Ok p) =>
        let '(h1, l) := alloc h (table_of_layers p) in
        match vs_init h1 l D_1 R_kg false 3 with
        | (h2, Err e) => Some (h2, Err e)
        | (h2, Ok o) => Some (h2, Ok (mksvm target z1 l o (bedrock_attr z1 cap)))
        end
    end.

(** ** get_discretized_profile, class_svm.py:334-436 *)
Definition base_layers (h : heap) (s : svm) : list layer := layers_of (t_rows (tbl h (s_arr s))).

(** Lines 391-416: depths of the layer bottoms. *)
Fixpoint incr_scan (inc : R) (p : list layer) (prev tmp depth : R) : list R :=
  match p with
  | [] => []
  | (t, v) :: p' =>
      let depth' := depth + t in
      if Rltb v (prev + inc) then incr_scan inc p' prev (tmp + t) depth'
      else depth' :: incr_scan inc p' (if Reqb tmp 0 then v else prev + inc) 0 depth'
  end.

Definition svm_discretize (h : heap) (s : svm) (fixed_thk Vs_increment : option R) (at_midpoint : bool) : heap * res vsobj :=
  let queried :=
    match fixed_thk, Vs_increment with
    | None, None => (h, Err ValueError)
    | Some _, Some _ => (h, Err ValueError)
    | Some t, None => class_query_given_thk_profile h (s_obj s) (ThkScalar t None) at_midpoint true
    | None, Some inc =>
        let p := base_layers h s in
        match get (vs_of p) 0 with
        | Err e => (h, Err ValueError)   (* np.max of an empty array *)
        | Ok v0 =>
            if Rleb (rmax_from v0 (vs_of p)) inc then (h, Err ValueError)
            else match dep2thk (0 :: incr_scan inc p v0 0 0) false with
                 | Err e => (h, Err e)
                 | Ok th => class_query_given_thk_profile h (s_obj s) (ThkArray th) at_midpoint true
                 end
        end
    end in
  match queried with
  | (h1, Err e) => (h1, Err e)
  | (h1, Ok o) => truncate h1 o (Some (s_z1 s)) (s_bedrock s)
  end.

(** ** get_randomized_profile, class_svm.py:467-790 *)

(** Lines 610-672: random layering.  [prop] gives the thickness proposed by the sampler
    after the layers drawn so far (a finite number); [None]: not finished. *)
Fixpoint svm_layering (fuel : nat) (z1 : R) (prop : list R -> R) (thk : list R) (z_top : R) : option (list R) :=
  match fuel with
  | O => None
  | S f =>
      let t := Rmax (prop thk) 2 in
      let z_bot := z_top + t in
      if Rltb z_bot z1 then svm_layering f z1 prop (thk ++ [t]) z_bot else Some (thk ++ [t])
  end.

(** Line 676. *)
Definition adjust_last (z1 : R) (thk : list R) : list R := removelast thk ++ [z1 - rsum (removelast thk)].

(** Lines 813-850 [_find_index_closest] (no NaN). *)
Definition find_index_closest (array : list R) (value : R) : res nat :=
  match array with [] => Err ValueError | _ => Ok (argmin (map (fun x => Rabs (x - value)) array)) end.

(** Lines 703-733: the coefficients of Toro (1995). *)
Record toro := mktoro { t_sigma : R; t_rho0 : R; t_delta : R; t_rho200 : R; t_b : R }.
Definition toro_of (Vs30 : R) : toro :=
  if Rltb Vs30 180 then mktoro (37/100) 0 5 (50/100) (744/1000)
  else if Rltb Vs30 360 then mktoro (31/100) (99/100) (39/10) (98/100) (344/1000)
  else if Rltb Vs30 760 then mktoro (27/100) (97/100) (38/10) 1 (293/1000)
  else mktoro (36/100) (95/100) (34/10) (42/100) (63/1000).

(** Lines 739-748. *)
Definition svm_sigma (use_Toros_std : bool) (c : toro) (v : R) : R :=
  if use_Toros_std then t_sigma c
  else - (7769 / 10000000000000) * v ^ 3 + 1597 / 1000000000 * v ^ 2 - 8724 / 10000000 * v + 4233 / 10000.

(** Lines 761-767: correlation with the layer above. *)
Definition rho_1L (c : toro) (z_mid thk : R) : R :=
  let rho_z := if Rltb 200 z_mid then t_rho200 c else t_rho200 c * Rpower ((z_mid + 0) / (200 + 0)) (t_b c) in
  let rho_thk := t_rho0 c * exp (- thk / t_delta c) in
  (1 - rho_z) * rho_thk + rho_z.

(** Lines 769-775; [g i] is the i-th standard normal sample, [y] the value of the layer
    above. *)
Fixpoint svm_Y (c : toro) (g : nat -> R) (i : nat) (y : R) (layers : list (R * R)) : list R :=
  match layers with
  | [] => []
  | (z_mid, thk) :: l =>
      let r := rho_1L c z_mid thk in
      let yi := if Nat.eqb i 0 then g 0%nat else r * y + g i * sqrt (1 - r ^ 2) in
      yi :: svm_Y c g (S i) yi l
  end.

(** Lines 676-784: the profile for given layers and samples. *)
Definition svm_realize (base : list layer) (Vs30 z1 : R) (use_Toros_std : bool) (thk0 : list R) (g : nat -> R) : res (list layer) :=
  let thk := adjust_last z1 thk0 in
  let! z_mid := thk2dep thk true in
  let! z_an := thk2dep (thk_of base) false in
  let c := toro_of Vs30 in
  assert! Nat.leb (length thk) (length z_mid) else IndexError in
  let! idx := map_res (find_index_closest z_an) (firstn (length thk) z_mid) in
  let! vb := map_res (get (vs_of base)) idx in
  let Y := svm_Y c g 0 0 (combine z_mid thk) in
  let Vs := map (fun q => fst q * exp (snd q * svm_sigma use_Toros_std c (fst q))) (combine vb Y) in
  let! v_last := last_res Vs in
  Ok (combine thk Vs ++ (if Rltb v_last 1000 then [(0, 1000)] else [])).

(** Lines 606-607 and 753: the two ways NumPy is seeded; [seed] has been truncated. *)
Definition seed_ok (seed : Z) : bool := (0 <=? seed)%Z && (2 * seed <? 2 ^ 32)%Z.

(** Everything random about one call of [_helper_get_rand_profile]: a function of the
    seed. *)
Record sampler := mksampler { sm_prop : Z -> list R -> R; sm_norm : Z -> nat -> R }.
Definition svm_draw (fuel : nat) (base : list layer) (s : svm) (std : bool) (sm : sampler) (seed : Z) : option (res (list layer)) :=
  if negb (seed_ok seed) then Some (Err ValueError)
  else match svm_layering fuel (s_z1 s) (sm_prop sm seed) [] 0 with
       | None => None
       | Some thk => Some (svm_realize base (s_Vs30 s) (s_z1 s) std thk (sm_norm sm seed))
       end.

(** Lines 539-553: the three criteria. *)
Definition svm_compliant (base : list layer) (Vs30 : R) (p : list layer) : res bool :=
  let! r30 := calc_Vs30 p 1 in
  let! r_last := last_res (vs_of p) in
  let! rz1 := calc_z1 p in
  let! b_last := last_res (vs_of base) in
  let! bz1 := calc_z1 base in
  Ok (Rltb (Rabs (r30 - Vs30)) 25 && Rltb (Rabs (r_last - b_last) / b_last) (5 / 100) && Rltb (Rabs (rz1 - bz1) / bz1) (20 / 100)).

(** Lines 535-565: [seed + counter] until the criteria are met. *)
Fixpoint svm_comply (rounds fuel : nat) (base : list layer) (s : svm) (std : bool) (sm : sampler) (seed : Z) : option (res (list layer)) :=
  match rounds with
  | O => None
  | S r =>
      match svm_draw fuel base s std sm seed with
      | None => None
      | Some (Err e) => Some (Err e)
      | Some (Ok p) =>
          match svm_compliant base (s_Vs30 s) p with
          | Err e => Some (Err e)
          | Ok true => Some (Ok p)
          | Ok false => svm_comply r fuel base s std sm (seed + 1)
          end
      end
  end.

(** Lines 517-570, for an integer [seed]. *)
Definition svm_randomize (rounds fuel : nat) (h : heap) (s : svm) (std compliance : bool) (sm : sampler) (seed : Z) : option (heap * res vsobj) :=
  let base := base_layers h s in
  match (if compliance then svm_comply rounds fuel base s std sm seed else svm_draw fuel base s std sm seed) with
  | None => None
  | Some (Err e) => Some (h, Err e)
  | Some (Ok p) => let '(h1, l) := alloc h (table_of_layers p) in Some (vs_init h1 l D_1 R_kg false 3)
  end.
