(** C99: the MKZ fit of modulus reduction curves. *)
From Coq Require Import Reals List Bool ZArith String Lia Lra.
From Verif Require Import Base M_generic M_interp M_soil P_soil M_params P_interp P_batch P_curvemat M_dampcal Prop_params M_fits.
Import ListNotations.
Open Scope R_scope.
Open Scope string_scope.
Open Scope list_scope.

(** ** Specification *)
(** The MKZ modulus ratio. *)
Definition law (b gr s g : R) : R := / (1 + b * Rpower (g / gr) s).
(** The box the library asks the curve fit to stay in, without its face gamma_ref = 0. *)
Definition in_box (b gr s : R) : Prop := 2/10 <= b <= 18/10 /\ 0 < gr <= 1/10 /\ 6/10 <= s <= 999/1000.
(** Column [j] of a table. *)
Definition column_of (j : nat) (rows : list (list R)) : list R := map (fun r => nth j r 0) rows.

Lemma F2_length {A B} (R : A -> B -> Prop) l l' : Forall2 R l l' -> List.length l = List.length l'.
Proof. induction 1; cbn; congruence. Qed.

Section CF.
Variable cf : list (R * R) -> res (R * R * R).

(** The curve fit of material [k] gives these values. *)
Definition fit_gives (k : nat) (rows : list (list R)) (b gr s : R) : Prop :=
  cf (combine (map (fun x => x / 100) (column_of (4 * k) rows)) (column_of (4 * k + 1) rows)) = Ok (b, gr, s).

Lemma points_eq k rows : mkz_points k rows = combine (map (fun x => x / 100) (column_of (4 * k) rows)) (column_of (4 * k + 1) rows).
Proof. unfold mkz_points, column_of. induction rows as [|r rows IH]; [reflexivity|]. cbn [map combine]. rewrite IH. reflexivity. Qed.

Lemma row_iff k rows p : mkz_row cf (mkz_points k rows) = Ok p <-> exists b gr s, fit_gives k rows b gr s /\ p = [gr; 0; s; b].
Proof.
  unfold mkz_row, fit_gives. rewrite <- points_eq. destruct (cf (mkz_points k rows)) as [[[b gr] s]|e]; cbn [bind fst snd].
  - split; [intros H; injection H as <-; eauto 6|]. intros (b' & gr' & s' & H & ->). injection H as <- <- <-. reflexivity.
  - split; [discriminate|]. intros (b' & gr' & s' & H & _). discriminate.
Qed.

(** ** The parameters *)
(** One row per group of four columns, holding reference strain, 0, s and beta of the
    curve fitted to the first two columns of the group; the function fails exactly when
    some curve fit fails, or the argument is not a 2-D array. *)
Theorem C99_parameters : forall c rows,
  fit_MKZ cf None = Err TypeError /\
  (forall P F, fit_MKZ cf (Some (c, rows)) = Ok (P, F) -> List.length P = (c / 4)%nat /\
     forall k, (k < c / 4)%nat -> exists b gr s, fit_gives k rows b gr s /\ nth k P [] = [gr; 0; s; b]) /\
  ((exists r, fit_MKZ cf (Some (c, rows)) = Ok r) <-> forall k, (k < c / 4)%nat -> exists b gr s, fit_gives k rows b gr s) /\
  (forall e, fit_MKZ cf (Some (c, rows)) = Err e ->
     exists k, (k < c / 4)%nat /\ cf (combine (map (fun x => x / 100) (column_of (4 * k) rows)) (column_of (4 * k + 1) rows)) = Err e).
Proof.
  intros c rows. split; [reflexivity|]. unfold fit_MKZ. split; [|split].
  - intros P F H. destruct (map_res _ _) as [ps|e] eqn:E in H; cbn [bind] in H; [|discriminate]. injection H as <- _.
    apply map_res_Forall2 in E. pose proof (F2_length _ _ _ E) as L. rewrite seq_length in L. split; [lia|].
    intros k Hk. apply row_iff. assert (X : forall n0 n ps, Forall2 (fun a b => mkz_row cf (mkz_points a rows) = Ok b) (seq n0 n) ps -> forall i, (i < n)%nat -> mkz_row cf (mkz_points (n0 + i) rows) = Ok (nth i ps [])).
    { clear. intros n0 n. revert n0. induction n as [|n IH]; intros n0 ps H i Hi; [lia|]. inversion H; subst. destruct i as [|i]; [rewrite Nat.add_0_r; assumption|].
      replace (n0 + S i)%nat with (S n0 + i)%nat by lia. cbn [nth]. apply (IH (S n0) l' H4 i). lia. }
    apply (X 0%nat (c / 4)%nat ps E k Hk).
  - assert (X : (exists r, (let! params := map_res (fun k => mkz_row cf (mkz_points k rows)) (seq 0 (c / 4)) in Ok (params, map (fitted_row c params) fit_strain)) = Ok r) <->
      (exists l, map_res (fun k => mkz_row cf (mkz_points k rows)) (seq 0 (c / 4)) = Ok l)).
    { destruct (map_res _ _) as [ps|e]; cbn [bind]; split; intros [r H]; try discriminate; eauto. }
    rewrite X, map_res_ok_iff. split.
    + intros H k Hk. destruct (H k ltac:(apply in_seq; lia)) as [p Hp]. apply row_iff in Hp as (b & gr & s & Hp & _). eauto.
    + intros H k Hk. apply in_seq in Hk. destruct (H k ltac:(lia)) as (b & gr & s & Hg). exists [gr; 0; s; b]. apply row_iff. eauto 6.
  - intros e H. destruct (map_res _ _) as [ps|e'] eqn:E in H; cbn [bind] in H; [discriminate|]. injection H as ->.
    apply P_batch.map_res_err in E as (k & Hk & E). apply in_seq in Hk. exists k. split; [lia|]. unfold mkz_row in E. rewrite <- points_eq.
    destruct (cf (mkz_points k rows)) as [p|e']; cbn [bind] in E; [discriminate|]. congruence.
Qed.

(** Damping columns are ignored, and a material only depends on its own columns. *)
Theorem C99_uses_modulus_columns_only : forall c rows rows',
  (forall k, (k < c / 4)%nat -> column_of (4 * k) rows = column_of (4 * k) rows' /\ column_of (4 * k + 1) rows = column_of (4 * k + 1) rows') ->
  fit_MKZ cf (Some (c, rows)) = fit_MKZ cf (Some (c, rows')).
Proof.
  intros c rows rows' H. unfold fit_MKZ. rewrite (map_res_ext (fun k => mkz_row cf (mkz_points k rows)) (fun k => mkz_row cf (mkz_points k rows'))); [reflexivity|].
  intros k Hk. apply in_seq in Hk. destruct (H k ltac:(lia)) as [A B]. rewrite !points_eq, A, B. reflexivity.
Qed.
Theorem C99_materials_independent : forall c rows rows' P F P' F' k, (k < c / 4)%nat ->
  column_of (4 * k) rows = column_of (4 * k) rows' -> column_of (4 * k + 1) rows = column_of (4 * k + 1) rows' ->
  fit_MKZ cf (Some (c, rows)) = Ok (P, F) -> fit_MKZ cf (Some (c, rows')) = Ok (P', F') -> nth k P [] = nth k P' [].
Proof.
  intros c rows rows' P F P' F' k Hk A B E E'.
  destruct (C99_parameters c rows) as (_ & H & _). destruct (C99_parameters c rows') as (_ & H' & _).
  destruct (proj2 (H P F E) k Hk) as (b & gr & s & Hf & ->). destruct (proj2 (H' P' F' E') k Hk) as (b' & gr' & s' & Hf' & ->).
  unfold fit_gives in Hf, Hf'. rewrite A, B in Hf. rewrite Hf in Hf'. injection Hf' as <- <- <-. reflexivity.
Qed.

(** ** The fitted curves *)
Lemma ln10 : 0 < ln 10. Proof. rewrite <- ln_1. apply ln_increasing; lra. Qed.
Lemma log10_pow z : log10 (powerRZ 10 z) = IZR z.
Proof.
  unfold log10. rewrite powerRZ_Rpower by lra. unfold Rpower. rewrite ln_exp. field. pose proof ln10. lra.
Qed.
Lemma log_lo : log10 (1 / 1000000) = -6.
Proof. replace (1 / 1000000) with (powerRZ 10 (-6)) by (unfold powerRZ; rewrite ?positive_nat_Z; change (Pos.to_nat 6) with 6%nat; change (Pos.to_nat 1) with 1%nat; cbn [pow]; field). apply log10_pow. Qed.
Lemma log_hi : log10 (1 / 10) = -1.
Proof. replace (1 / 10) with (powerRZ 10 (-1)) by (unfold powerRZ; rewrite ?positive_nat_Z; change (Pos.to_nat 6) with 6%nat; change (Pos.to_nat 1) with 1%nat; cbn [pow]; field). apply log10_pow. Qed.
Lemma fit_strain_nth i : (i < 109)%nat -> nth i fit_strain 0 = Rpower 10 (-6 + INR i * (5 / 108)).
Proof.
  intros Hi. unfold fit_strain, geomspace. set (f := fun t => Rpower 10 t). rewrite log_lo, log_hi.
  rewrite (nth_indep _ 0 (f 0)) by (rewrite map_length, P_interp.linspace_length; exact Hi). rewrite map_nth. unfold f.
  rewrite P_interp.linspace_nth' by lia. f_equal. f_equal. f_equal. replace (INR (109 - 1)) with 108 by (rewrite INR_IZR_INZ; reflexivity). lra.
Qed.
Lemma fit_strain_length : List.length fit_strain = 109%nat.
Proof. unfold fit_strain. apply geomspace_length. Qed.
Lemma strain_pos i : 0 < Rpower 10 (-6 + INR i * (5 / 108)). Proof. apply exp_pos. Qed.

Lemma ratio_law b gr s g : 0 < gr -> 0 <= b -> 0 < s -> 0 < g -> mkz_ratio_at [gr; 0; s; b] g = Fin (law b gr s g).
Proof.
  intros Hgr Hb Hs Hg. unfold mkz_ratio_at. cbn [nth]. rewrite tau_MKZ_val by auto. f_equal.
  replace (mkz_val gr b s 1 g / g / 1) with (mkz_val gr b s 1 g / (1 * g)) by (field; lra). rewrite mkz_ratio by lra.
  unfold law. rewrite Rabs_pos_eq by lra. rewrite pw_pos; [reflexivity|]. apply Rgt_not_eq, Rdiv_lt_0_compat; auto.
Qed.

Definition cells (p : list R) (g : R) : list num := [Fin (g * 100); mkz_ratio_at p g; Fin (g * 100); Fin (0 * 100)].
Lemma concat_cells P g : List.length (List.concat (map (fun p => cells p g) P)) = (4 * List.length P)%nat /\
  forall k j, (k < List.length P)%nat -> (j < 4)%nat -> nth (4 * k + j) (List.concat (map (fun p => cells p g) P)) NaN = nth j (cells (nth k P []) g) NaN.
Proof.
  induction P as [|p P [IL IH]]; [split; [reflexivity|cbn; lia]|]. cbn [map List.concat]. split.
  - rewrite app_length, IL. cbn [cells List.length]. lia.
  - intros k j Hk Hj. destruct k as [|k].
    + rewrite app_nth1 by (cbn [cells List.length]; lia). cbn [Nat.mul Nat.add nth]. reflexivity.
    + rewrite app_nth2 by (cbn [cells List.length]; lia). replace (4 * S k + j - List.length (cells p g))%nat with (4 * k + j)%nat by (cbn [cells List.length]; lia).
      apply IH; [cbn in Hk; lia|exact Hj].
Qed.
Lemma fitted_cell c P g k j : (k < List.length P)%nat -> (j < 4)%nat -> nth (4 * k + j) (fitted_row c P g) NaN = nth j (cells (nth k P []) g) NaN.
Proof.
  intros Hk Hj. destruct (concat_cells P g) as [L H]. unfold fitted_row. change (fun p => [Fin (g * 100); mkz_ratio_at p g; Fin (g * 100); Fin (0 * 100)]) with (fun p => cells p g).
  rewrite app_nth1 by (rewrite L; lia). apply H; assumption.
Qed.
Lemma fitted_rest c P g j : (4 * List.length P <= j < c)%nat -> nth j (fitted_row c P g) NaN = Fin 0.
Proof.
  intros Hj. destruct (concat_cells P g) as [L _]. unfold fitted_row. change (fun p => [Fin (g * 100); mkz_ratio_at p g; Fin (g * 100); Fin (0 * 100)]) with (fun p => cells p g).
  rewrite app_nth2 by (rewrite L; lia). rewrite (nth_indep _ NaN (Fin 0)) by (rewrite repeat_length, L; lia). apply nth_repeat.
Qed.
Lemma fitted_length c P g : (4 * List.length P <= c)%nat -> List.length (fitted_row c P g) = c.
Proof.
  intros H. destruct (concat_cells P g) as [L _]. unfold fitted_row. change (fun p => [Fin (g * 100); mkz_ratio_at p g; Fin (g * 100); Fin (0 * 100)]) with (fun p => cells p g).
  rewrite app_length, repeat_length, L. lia.
Qed.

(** Cell [j] of row [i]. *)
Definition cell_at (F : list (list num)) (i j : nat) : num := nth j (nth i F []) NaN.

(** 109 rows, as many columns as the input; strains (in percent) run from 0.0001 to 10
    with a constant ratio, twice for each material; the damping columns and columns that
    belong to no material are zero. *)
Theorem C99_layout : forall c rows P F, fit_MKZ cf (Some (c, rows)) = Ok (P, F) ->
  List.length F = 109%nat /\ (forall i, (i < 109)%nat -> List.length (nth i F []) = c) /\
  (exists e : nat -> R, e 0%nat = 1 / 10000 /\ e 108%nat = 10 /\ (forall i, e (S i) = e i * Rpower 10 (5 / 108)) /\
     forall i k, (i < 109)%nat -> (k < c / 4)%nat -> cell_at F i (4 * k) = Fin (e i) /\ cell_at F i (4 * k + 2) = Fin (e i)) /\
  (forall i k, (i < 109)%nat -> (k < c / 4)%nat -> cell_at F i (4 * k + 3) = Fin 0) /\
  (forall i j, (i < 109)%nat -> (4 * (c / 4) <= j < c)%nat -> cell_at F i j = Fin 0).
Proof.
  intros c rows P F E. pose proof (proj1 (proj2 (C99_parameters c rows)) P F E) as [LP _].
  assert (EF : F = map (fitted_row c P) fit_strain).
  { unfold fit_MKZ in E. destruct (map_res _ _) as [ps|e] in E; cbn [bind] in E; [|discriminate]. injection E as <- <-. reflexivity. }
  assert (Hc : (4 * (c / 4) <= c)%nat) by (apply Nat.mul_div_le; lia).
  assert (N : forall i, (i < 109)%nat -> nth i F [] = fitted_row c P (Rpower 10 (-6 + INR i * (5 / 108)))).
  { intros i Hi. rewrite EF. rewrite <- fit_strain_nth by exact Hi. rewrite (nth_indep _ [] (fitted_row c P 0)) by (rewrite map_length, fit_strain_length; exact Hi). apply map_nth. }
  split; [rewrite EF, map_length; apply fit_strain_length|].
  split; [intros i Hi; rewrite N by exact Hi; apply fitted_length; lia|].
  split; [|split].
  - exists (fun i => Rpower 10 (-6 + INR i * (5 / 108)) * 100).
    assert (P2 : Rpower 10 2 = 100) by (replace 2 with (INR 2) by (cbn; lra); rewrite Rpower_pow by lra; cbn; lra).
    assert (Q : forall x y, x + 2 = IZR y -> Rpower 10 x * 100 = powerRZ 10 y).
    { intros x y Hxy. rewrite powerRZ_Rpower by lra. rewrite <- Hxy, Rpower_plus, P2. reflexivity. }
    split; [rewrite (Q _ (-4)%Z) by (cbn; lra); unfold powerRZ; change (Pos.to_nat 4) with 4%nat; cbn [pow]; field|].
    split; [rewrite (Q _ 1%Z) by (replace (INR 108) with 108 by (rewrite INR_IZR_INZ; reflexivity); lra); unfold powerRZ; change (Pos.to_nat 1) with 1%nat; cbn [pow]; lra|].
    split; [intros i; rewrite S_INR; replace (-6 + (INR i + 1) * (5 / 108)) with (-6 + INR i * (5 / 108) + 5 / 108) by lra; rewrite (Rpower_plus (-6 + INR i * (5 / 108))); ring|].
    intros i k Hi Hk. unfold cell_at. rewrite N by exact Hi. rewrite <- (Nat.add_0_r (4 * k)) at 1. rewrite !fitted_cell by lia. split; reflexivity.
  - intros i k Hi Hk. unfold cell_at. rewrite N by exact Hi. rewrite fitted_cell by lia. cbn [cells nth]. f_equal. lra.
  - intros i j Hi Hj. unfold cell_at. rewrite N by exact Hi. apply fitted_rest. lia.
Qed.

(** If the curve fit of a material stays inside its box, the fitted column is the MKZ
    law with the returned parameters at those strains: between 0 and 1 and strictly
    decreasing, 1/(1+beta) where the strain is the reference strain. *)
Lemma law_bounds b gr s g : 0 < b -> 0 < gr -> 0 < s -> 0 < g -> 0 < law b gr s g < 1.
Proof.
  intros Hb Hgr Hs Hg. unfold law. assert (0 < Rpower (g / gr) s) by apply exp_pos. assert (1 < 1 + b * Rpower (g / gr) s) by nra.
  split; [apply Rinv_0_lt_compat; lra|]. rewrite <- Rinv_1 at 2. apply Rinv_lt_contravar; lra.
Qed.
Lemma law_decreasing b gr s g g' : 0 < b -> 0 < gr -> 0 < s -> 0 < g < g' -> law b gr s g' < law b gr s g.
Proof.
  intros Hb Hgr Hs Hg. unfold law. assert (0 < Rpower (g / gr) s) by apply exp_pos. assert (0 < / gr) by (apply Rinv_0_lt_compat; exact Hgr).
  assert (Rpower (g / gr) s < Rpower (g' / gr) s).
  { unfold Rpower. apply exp_increasing. apply Rmult_lt_compat_l; [exact Hs|]. apply ln_increasing; [apply Rdiv_lt_0_compat; lra|]. unfold Rdiv. apply Rmult_lt_compat_r; lra. }
  apply Rinv_lt_contravar; [apply Rmult_lt_0_compat; nra|nra].
Qed.

Theorem C99_fitted_law : forall c rows P F k b gr s, fit_MKZ cf (Some (c, rows)) = Ok (P, F) -> (k < c / 4)%nat ->
  nth k P [] = [gr; 0; s; b] -> in_box b gr s ->
  exists v e : nat -> R, (forall i, (i < 109)%nat -> cell_at F i (4 * k) = Fin (e i) /\ cell_at F i (4 * k + 1) = Fin (v i)) /\
    (forall i, (i < 109)%nat -> v i = law b gr s (e i / 100)) /\
    (forall i, (i < 109)%nat -> 0 < v i < 1) /\ (forall i j, (i < j < 109)%nat -> v j < v i).
Proof.
  intros c rows P F k b gr s E Hk Hp (Hb & Hgr & Hs). pose proof (proj1 (proj2 (C99_parameters c rows)) P F E) as [LP _].
  assert (EF : F = map (fitted_row c P) fit_strain).
  { unfold fit_MKZ in E. destruct (map_res _ _) as [ps|e] in E; cbn [bind] in E; [|discriminate]. injection E as <- <-. reflexivity. }
  set (x := fun i => Rpower 10 (-6 + INR i * (5 / 108))).
  assert (Hx : forall i, 0 < x i) by (intros; apply exp_pos).
  assert (N : forall i, (i < 109)%nat -> nth i F [] = fitted_row c P (x i)).
  { intros i Hi. rewrite EF. unfold x. rewrite <- fit_strain_nth by exact Hi. rewrite (nth_indep _ [] (fitted_row c P 0)) by (rewrite map_length, fit_strain_length; exact Hi). apply map_nth. }
  exists (fun i => law b gr s (x i)), (fun i => x i * 100). split; [|split; [|split]].
  - intros i Hi. unfold cell_at. rewrite N by exact Hi. rewrite <- (Nat.add_0_r (4 * k)) at 1. rewrite !fitted_cell by lia. rewrite Hp. cbn [cells nth].
    split; [reflexivity|]. apply ratio_law; try lra. apply Hx.
  - intros i _. f_equal. lra.
  - intros i _. apply law_bounds; try lra. apply Hx.
  - intros i j Hij. apply law_decreasing; try lra. split; [apply Hx|]. unfold x. apply Rpower_lt; [lra|]. assert (INR i < INR j) by (apply lt_INR; lia). lra.
Qed.

(** The box includes gamma_ref = 0: such a fit gives a modulus of zero at every strain. *)
Theorem C99_zero_reference_strain : forall c rows P F k b s, fit_MKZ cf (Some (c, rows)) = Ok (P, F) -> (k < c / 4)%nat ->
  nth k P [] = [0; 0; s; b] -> 0 < b -> 0 < s -> forall i, (i < 109)%nat -> cell_at F i (4 * k + 1) = Fin 0.
Proof.
  intros c rows P F k b s E Hk Hp Hb Hs i Hi. pose proof (proj1 (proj2 (C99_parameters c rows)) P F E) as [LP _].
  assert (EF : F = map (fitted_row c P) fit_strain).
  { unfold fit_MKZ in E. destruct (map_res _ _) as [ps|e] in E; cbn [bind] in E; [|discriminate]. injection E as <- <-. reflexivity. }
  unfold cell_at. rewrite EF. rewrite (nth_indep _ [] (fitted_row c P 0)) by (rewrite map_length, fit_strain_length; exact Hi). rewrite map_nth.
  rewrite fitted_cell by lia. rewrite Hp, fit_strain_nth by exact Hi. cbn [cells nth]. pose proof (strain_pos i) as Hx. set (x := Rpower 10 _) in *.
  unfold mkz_ratio_at, tau_MKZ, over_zero. cbn [nth]. rewrite (proj2 (Reqb_true 0 0) eq_refl), (proj2 (Reqb_false s 0)), (proj2 (Reqb_false x 0)), (proj2 (Rltb_true 0 s)), (proj2 (Reqb_false b 0)) by lra.
  f_equal. unfold Rdiv. ring.
Qed.

(** ** Using the parameters *)
(** A row is what the documented text format holds: read with [from_files] it gives the
    fitted values and a unit modulus. *)
Theorem C99_rows_are_file_format : forall c rows P F k, fit_MKZ cf (Some (c, rows)) = Ok (P, F) -> (k < c / 4)%nat ->
  exists b gr s, fit_gives k rows b gr s /\
    mkz_deserialize (nth k P []) true = Ok [("gamma_ref", gr); ("s", s); ("beta", b); ("Gmax", 1)] /\
    mkz_serialize [("gamma_ref", gr); ("s", s); ("beta", b); ("Gmax", 1)] true = Ok (nth k P []).
Proof.
  intros c rows P F k E Hk. destruct (proj2 (proj1 (proj2 (C99_parameters c rows)) P F E) k Hk) as (b & gr & s & H & ->).
  exists b, gr, s. split; [exact H|]. split; reflexivity.
Qed.

Lemma mkz_of_columns ls : Forall (fun l => List.length l = 4%nat) ls ->
  multi_from_array MKZ (List.length ls) (transpose_R 4 ls) = Ok (map (combine MKZ_keys) ls).
Proof.
  intros HF. destruct (model_facts MKZ ltac:(right; reflexivity)) as (HN & _ & _ & Hd).
  unfold multi_from_array, extract_from_param_format. cbn [bind].
  replace (map (map Fin) (transpose_R 4 ls)) with (map (map Fin) (map (map (fun x : R => x)) (transpose_R 4 ls))).
  2:{ f_equal. rewrite <- (map_id (transpose_R 4 ls)) at 2. apply map_ext. intros l. apply map_id. }
  change 4%nat with (List.length (mkeys MKZ)). rewrite (transposed_columns (List.length (mkeys MKZ)) ls (fun x : R => x)) by exact HF.
  assert (E1 : map_res (fun col => mdeser MKZ (map (fun x => match x with Fin r => r | _ => 0 end) col)) (map (map (fun x : R => Fin x)) ls) = Ok (map (combine MKZ_keys) ls)).
  { clear HN. induction HF as [|l ls L HF IH]; [reflexivity|]. cbn [map map_res].
    assert (Hmap : map (fun x => match x with Fin r => r | _ => 0 end) (map (fun x => Fin x) l) = l) by (rewrite map_map; apply map_id).
    rewrite Hmap, Hd by exact L. cbn [bind]. rewrite IH. reflexivity. }
  rewrite E1. cbn [bind]. clear E1. induction HF as [|l ls L HF IH]; [reflexivity|]. cbn [map map_res].
  assert (C' : complete (mkeys MKZ) (combine (mkeys MKZ) l)).
  { split; rewrite keys_combine by exact L; [exact HN|]. intros k. reflexivity. }
  change (combine MKZ_keys l) with (combine (mkeys MKZ) l). rewrite (proj1 (proj2 (C40_constructor (mkeys MKZ) _) _ eq_refl (proj1 C')) (proj2 C')). cbn [bind]. rewrite IH. reflexivity.
Qed.

(** The multi-layer parameter class reads the same matrix (one column per layer) in
    another order, without complaint: s becomes 0, beta becomes s and the modulus becomes
    beta, so that the layer's modulus no longer depends on the strain. *)
Theorem C99_not_a_parameter_matrix : forall c rows P F, fit_MKZ cf (Some (c, rows)) = Ok (P, F) -> (4 <= c)%nat ->
  exists ds, multi_from_array MKZ (c / 4) (transpose_R 4 P) = Ok ds /\ List.length ds = (c / 4)%nat /\
    forall k, (k < c / 4)%nat -> exists b gr s, fit_gives k rows b gr s /\
      nth k ds [] = [("gamma_ref", gr); ("s", 0); ("beta", s); ("Gmax", b)] /\
      (in_box b gr s -> forall g, g <> 0 -> tau_MKZ gr s 0 b g = Fin (b * g / (1 + s))).
Proof.
  intros c rows P F E Hc. destruct (proj1 (proj2 (C99_parameters c rows)) P F E) as [LP H].
  assert (L4 : forall p, In p P -> List.length p = 4%nat).
  { intros p Hp. apply (In_nth _ _ []) in Hp as (k & Hk & <-). destruct (H k ltac:(lia)) as (b & gr & s & _ & ->). reflexivity. }
  assert (F4 : Forall (fun p => List.length p = 4%nat) P) by (apply Forall_forall; exact L4).
  exists (map (combine MKZ_keys) P). split; [rewrite <- LP; apply mkz_of_columns, F4|]. split; [rewrite map_length; exact LP|].
  intros k Hk. destruct (H k Hk) as (b & gr & s & Hf & Ep). exists b, gr, s. split; [exact Hf|]. split.
  - refine (eq_trans (nth_indep (map (combine MKZ_keys) P) [] (combine MKZ_keys (@nil R)) _) _); [rewrite map_length; lia|]. rewrite map_nth, Ep. reflexivity.
  - intros (Hb & Hg & Hs) g Hg0. unfold tau_MKZ. rewrite (proj2 (Reqb_false gr 0)) by lra. unfold npow.
    assert (0 < Rabs g / gr) by (apply Rdiv_lt_0_compat; [apply Rabs_pos_lt; exact Hg0|lra]). rewrite (proj2 (Rltb_true 0 _)) by assumption.
    rewrite Rpower_O by assumption. unfold ndiv. rewrite (proj2 (Reqb_false _ 0)) by lra. f_equal. f_equal. lra.
Qed.
End CF.

(** A table with two materials and one column too many, and a fit that answers by the
    first strain. *)
Example C99_instance :
  let cf := fun pts : list (R * R) => match pts with [] => Err ValueError | (x, _) :: _ => Ok (1, x, 9/10) end in
  let rows := [[1; 1; 1; 5; 2; 9/10; 2; 7; 42]; [3; 1/2; 3; 6; 4; 1/3; 4; 8; 43]] in
  exists F, fit_MKZ cf (Some (9%nat, rows)) = Ok ([[1/100; 0; 9/10; 1]; [2/100; 0; 9/10; 1]], F) /\
    cell_at F 7 8 = Fin 0 /\ cell_at F 3 7 = Fin 0 /\ in_box 1 (1/100) (9/10) /\ fit_MKZ cf (Some (4%nat, [])) = Err ValueError.
Proof.
  intros cf rows. eexists. split; [reflexivity|].
  assert (E : fit_MKZ cf (Some (9%nat, rows)) = Ok ([[1/100; 0; 9/10; 1]; [2/100; 0; 9/10; 1]], map (fitted_row 9 [[1/100; 0; 9/10; 1]; [2/100; 0; 9/10; 1]]) fit_strain)) by reflexivity.
  destruct (C99_layout cf 9 rows _ _ E) as (_ & _ & _ & D & R0).
  split; [apply R0; cbn; lia|]. split; [apply (D 3%nat 1%nat); cbn; lia|]. split; [unfold in_box; lra|reflexivity].
Qed.
