(** C102: the mean thickness of random layers. *)
From Coq Require Import Reals List Bool ZArith Lia Lra Psatz.
From Verif Require Import Base M_soil P_soil M_svmeq.
Import ListNotations.
Open Scope R_scope.

(** The documented relation (Eq 7 of Shi and Asimaki, quoted in the code): thickness and
    middle depth. *)
Definition mean_layer (z x : R) : Prop := 0 < z + x / 2 /\ x = 9 / 8 * Rpower (z + x / 2) (31 / 50).

Lemma pow_pos u p : 0 < Rpower u p. Proof. apply exp_pos. Qed.
Lemma split_pow u : 0 < u -> u = Rpower u (31 / 50) * Rpower u (19 / 50).
Proof. intros H. rewrite <- Rpower_plus. replace (31 / 50 + 19 / 50) with 1 by field. symmetry. apply Rpower_1, H. Qed.

(** In terms of the middle depth [u]: u - 9/16 u^0.62 = z. *)
Definition top_of (u : R) : R := u - 9 / 16 * Rpower u (31 / 50).
Lemma layer_mid z x : mean_layer z x <-> 0 < z + x / 2 /\ top_of (z + x / 2) = z.
Proof. unfold mean_layer, top_of. split; intros [H E]; (split; [exact H|]); lra. Qed.
Lemma top_factor u : 0 < u -> top_of u = Rpower u (31 / 50) * (Rpower u (19 / 50) - 9 / 16).
Proof. intros H. unfold top_of. rewrite (split_pow u H) at 1. ring. Qed.
Lemma top_nonneg u : 0 < u -> 0 <= top_of u -> 9 / 16 <= Rpower u (19 / 50).
Proof.
  intros H T. rewrite (top_factor u H) in T. pose proof (pow_pos u (31 / 50)).
  destruct (Rle_dec (9 / 16) (Rpower u (19 / 50))) as [L|L]; [exact L|]. exfalso. nra.
Qed.
Lemma Rpower_mono u v p : 0 < u -> u < v -> 0 < p -> Rpower u p < Rpower v p.
Proof. intros H L P. unfold Rpower. apply exp_increasing. apply Rmult_lt_compat_l; [exact P|]. apply ln_increasing; lra. Qed.
Lemma top_mono u v : 0 < u -> u < v -> 0 <= top_of u -> top_of u < top_of v.
Proof.
  intros H L T. pose proof (top_nonneg u H T) as N. rewrite (top_factor u H), (top_factor v) by lra.
  pose proof (Rpower_mono u v (31 / 50) H L ltac:(lra)). pose proof (Rpower_mono u v (19 / 50) H L ltac:(lra)). pose proof (pow_pos u (31 / 50)). nra.
Qed.
Lemma top_exists z : 0 < z -> exists u, 0 < u /\ top_of u = z.
Proof.
  intros Hz. set (f := fun t => exp t - 9 / 16 * exp (31 / 50 * t) - z).
  assert (Cf : continuity f).
  { unfold f. intros t. repeat apply continuity_pt_minus.
    - apply derivable_continuous_pt, derivable_pt_exp.
    - apply continuity_pt_mult; [apply continuity_pt_const; intros a b; reflexivity|].
      apply (continuity_pt_comp (fun t => 31 / 50 * t) exp); [|apply derivable_continuous_pt, derivable_pt_exp].
      apply continuity_pt_mult; [apply continuity_pt_const; intros a b; reflexivity|]. apply derivable_continuous_pt, derivable_pt_id.
    - apply continuity_pt_const. intros a b. reflexivity. }
  set (U := 1 + 3 * z). set (t0 := ln (9 / 16) * (50 / 19)).
  assert (E0 : exp t0 = 9 / 16 * exp (31 / 50 * t0)).
  { rewrite <- (exp_ln (9 / 16)) by lra. rewrite <- exp_plus. f_equal. unfold t0. field. }
  assert (L0 : t0 < 0). { unfold t0. assert (ln (9 / 16) < 0) by (rewrite <- ln_1; apply ln_increasing; lra). lra. }
  assert (LU : 0 < ln U) by (rewrite <- ln_1; apply ln_increasing; unfold U; lra).
  destruct (IVT f t0 (ln U) Cf ltac:(lra)) as (t & _ & Ht).
  - unfold f. rewrite <- E0. lra.
  - unfold f. assert (exp (31 / 50 * ln U) < exp (ln U)) by (apply exp_increasing; lra). rewrite exp_ln in * by (unfold U; lra). unfold U in *. lra.
  - exists (exp t). split; [apply exp_pos|]. unfold top_of, Rpower. rewrite ln_exp. unfold f in Ht. lra.
Qed.

(** Every depth has exactly one mean thickness, and it is positive. *)
Lemma exists_pos z : 0 <= z -> exists u, 0 < u /\ top_of u = z.
Proof.
  intros [H| <-]; [apply top_exists, H|]. exists (Rpower (9 / 16) (50 / 19)). split; [apply pow_pos|].
  rewrite top_factor by apply pow_pos. rewrite !Rpower_mult. replace (50 / 19 * (19 / 50)) with 1 by field. rewrite (Rpower_1 (9 / 16)) by lra. ring.
Qed.
Lemma mid_unique u v : 0 < u -> 0 < v -> 0 <= top_of u -> top_of u = top_of v -> u = v.
Proof.
  intros Hu Hv T E. destruct (Rtotal_order u v) as [L|[L|L]]; [|exact L|].
  - pose proof (top_mono u v Hu L T). lra.
  - pose proof (top_mono v u Hv L ltac:(lra)). lra.
Qed.

Theorem C102_mean_thickness : forall z, 0 <= z -> exists x, 0 < x /\ mean_layer z x /\ forall y, mean_layer z y -> y = x.
Proof.
  intros z Hz. destruct (exists_pos z Hz) as (u & Hu & E). exists (2 * (u - z)).
  assert (P : 0 < u - z) by (rewrite <- E; unfold top_of; pose proof (pow_pos u (31 / 50)); lra).
  split; [lra|]. assert (M : z + 2 * (u - z) / 2 = u) by field. split; [apply layer_mid; rewrite M; auto|].
  intros y Hy. apply layer_mid in Hy as [Py Ey]. assert (z + y / 2 = u) by (apply mid_unique; lra). lra.
Qed.

(** The roots of the function given to the solver: the mean thickness, and at the surface
    also 0; above the root the function is negative, below it positive. *)
Lemma func_value x z : 0 <= z + x / 2 -> thk_depth_func x z = Fin (9 / 8 * pw (z + x / 2) (62 / 100) - x).
Proof. intros H. unfold thk_depth_func. rewrite npow_nonneg by lra. f_equal. lra. Qed.
Lemma pw_eq u : 0 < u -> pw u (62 / 100) = Rpower u (31 / 50).
Proof. intros H. replace (62 / 100) with (31 / 50) by field. apply pw_pos. lra. Qed.
Lemma pw_zero : pw 0 (62 / 100) = 0.
Proof. apply pw_0. Qed.

Theorem C102_roots : forall z x, 0 <= z -> (thk_depth_func x z = Fin 0 <-> mean_layer z x \/ (z = 0 /\ x = 0)).
Proof.
  intros z x Hz. destruct (Rle_dec 0 (z + x / 2)) as [H|H].
  - rewrite (func_value x z H). destruct H as [H|H].
    + rewrite (pw_eq _ H). split.
      * intros E. injection E as E. left. split; [exact H|lra].
      * intros [[_ E]|[-> ->]]; [f_equal; lra|lra].
    + rewrite <- H, pw_zero. split.
      * intros E. injection E as E. right. lra.
      * intros [[P _]|[-> ->]]; [lra|f_equal; lra].
  - split.
    + unfold thk_depth_func. rewrite npow_neg_nan; [discriminate|lra|]. replace (Int_part (62 / 100)) with 0%Z; [lra|].
      unfold Int_part. rewrite <- (tech_up (62 / 100) 1); [reflexivity| |]; lra.
    + intros [[P _]|[-> ->]]; lra.
Qed.
Theorem C102_sign : forall z x m, 0 <= z -> mean_layer z m -> - (2 * z) < x -> x <> 0 ->
  exists r, thk_depth_func x z = Fin r /\ (0 < r <-> x < m) /\ (r < 0 <-> m < x).
Proof.
  intros z x m Hz Hm Hx H0. apply layer_mid in Hm as [Pm Em]. assert (P : 0 < z + x / 2) by lra. rewrite func_value by lra. rewrite pw_eq by exact P.
  eexists. split; [reflexivity|]. set (u := z + x / 2) in *. set (v := z + m / 2) in *.
  assert (E : 9 / 8 * Rpower u (31 / 50) - x = 2 * (z - top_of u)) by (unfold top_of, u; field_simplify; fold u; lra).
  rewrite E. assert (A : u < v -> top_of u < z).
  { intros L. destruct (Rle_dec 0 (top_of u)) as [T|T]; [rewrite <- Em; apply top_mono; assumption|lra]. }
  assert (B : v < u -> z < top_of u) by (intros L; rewrite <- Em at 1; apply top_mono; [exact Pm|exact L|lra]).
  assert (C : x < m <-> u < v) by (unfold u, v; split; lra). assert (D : m < x <-> v < u) by (unfold u, v; split; lra).
  destruct (Rtotal_order u v) as [L|[L|L]].
  - specialize (A L). split; split; intros; try apply C; try apply D in H; lra.
  - rewrite L, Em. split; split; intros Q; try (apply C in Q); try (apply D in Q); lra.
  - specialize (B L). split; split; intros Q; try (apply C in Q); try (apply D); lra.
Qed.

(** The mean thickness grows with depth, but less and less than in proportion. *)
Theorem C102_grows : forall z z' x x', 0 <= z -> z < z' -> mean_layer z x -> mean_layer z' x' -> x < x'.
Proof.
  intros z z' x x' Hz L H H'. pose proof H as H1. pose proof H' as H1'. destruct H1 as [Pu E], H1' as [Pv E']. rewrite E, E'.
  apply layer_mid in H as [_ T], H' as [_ T'].
  apply Rmult_lt_compat_l; [lra|]. apply Rpower_mono; [exact Pu| |lra]. apply Rnot_le_lt. intros [G|G].
  - pose proof (top_mono _ _ Pv G ltac:(lra)). lra.
  - rewrite G in T'. lra.
Qed.

(** Layers are at least 2 m (C54): the mean is below that exactly above the depth
    (16/9)^(50/31) - 1, about 1.5 m. *)
Theorem C102_two_metres : forall z x, 0 <= z -> mean_layer z x -> (x < 2 <-> z < Rpower (16 / 9) (50 / 31) - 1).
Proof.
  intros z x Hz H. set (w := Rpower (16 / 9) (50 / 31)).
  assert (W : 1 < w). { unfold w. rewrite <- (Rpower_O (16 / 9)) by lra. apply Rpower_lt; lra. }
  assert (M : mean_layer (w - 1) 2).
  { split; [lra|]. replace (w - 1 + 2 / 2) with w by field. unfold w. rewrite Rpower_mult. replace (50 / 31 * (31 / 50)) with 1 by field. rewrite Rpower_1; lra. }
  destruct (Rtotal_order z (w - 1)) as [L|[L|L]].
  - pose proof (C102_grows _ _ _ _ Hz L H M). split; intros; lra.
  - destruct (C102_mean_thickness z Hz) as (y & _ & _ & U). rewrite <- L in M. pose proof (U _ H). pose proof (U _ M). split; intros; lra.
  - pose proof (C102_grows (w - 1) _ _ _ ltac:(lra) L M H). split; intros; lra.
Qed.

(** The loop that "keeps trying until fsolve converges" repeats one call: it ends exactly
    when the first attempt converges, whatever the number of attempts. *)
Theorem C102_retrying : forall fsolve z x, (exists fuel, mean_thk fsolve fuel z = Some x) <->
  fsolve (fun thk => thk_depth_func thk z) (z + 4) = (x, true).
Proof.
  intros fsolve z x. split.
  - intros (n & H). induction n as [|n IH]; [discriminate|]. cbn [mean_thk] in H.
    destruct (fsolve _ _) as [y ok]. destruct ok; [injection H as ->; reflexivity|]. apply IH, H.
  - intros E. exists 1%nat. cbn [mean_thk]. rewrite E. reflexivity.
Qed.
Theorem C102_never_ends : forall fsolve z, (forall fuel, mean_thk fsolve fuel z = None) <->
  snd (fsolve (fun thk => thk_depth_func thk z) (z + 4)) = false.
Proof.
  intros fsolve z. split.
  - intros H. specialize (H 1%nat). cbn [mean_thk] in H. destruct (fsolve _ _) as [y [|]]; [discriminate|reflexivity].
  - intros H n. induction n as [|n IH]; [reflexivity|]. cbn [mean_thk]. destruct (fsolve _ _) as [y ok]. cbn in H. rewrite H. exact IH.
Qed.

(** 1/2 m below the surface: the layer of thickness 1 would need its middle at 1 m. *)
Example C102_instance : mean_layer (7 / 16) (9 / 8) /\ thk_depth_func (9 / 8) (7 / 16) = Fin 0 /\ thk_depth_func 0 0 = Fin 0 /\
  (exists x, mean_layer 0 x) /\ mean_thk (fun _ s => (s, true)) 1 3 = Some (3 + 4).
Proof.
  assert (M : mean_layer (7 / 16) (9 / 8)).
  { split; [lra|]. replace (7 / 16 + 9 / 8 / 2) with 1 by field. unfold Rpower. rewrite ln_1, Rmult_0_r, exp_0. lra. }
  split; [exact M|]. split; [apply C102_roots; [lra|left; exact M]|]. split; [apply C102_roots; [lra|right; auto]|].
  split; [|reflexivity]. destruct (C102_mean_thickness 0 ltac:(lra)) as (x & _ & H & _). exists x. exact H.
Qed.
