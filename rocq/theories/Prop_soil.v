(** Theorems about the stress-strain laws and damping curves (C42-C45). *)
From Coq Require Import Reals List Bool ZArith Lia Lra.
From Verif Require Import Base M_soil P_soil.
Import ListNotations.
Open Scope R_scope.

Lemma inv_le_1 x : 1 <= x -> / x <= 1.
Proof. intros. replace 1 with (/ 1) by lra. apply Rinv_le_contravar; lra. Qed.

(** ** C42 MKZ *)
Theorem C42_MKZ_law : forall gr beta s G, 0 < gr -> 0 <= beta -> 0 < s -> 0 < G ->
  exists t : R -> R, (forall g, tau_MKZ gr beta s G g = Fin (t g)) /\
    t 0 = 0 /\ (forall g, t (- g) = - t g) /\ (forall g, Rabs (t g) <= G * Rabs g) /\
    (forall g, 0 < g -> 0 < t g) /\
    (forall g, g <> 0 -> 0 < t g / (G * g) <= 1) /\
    (forall g1 g2, 0 < Rabs g1 <= Rabs g2 -> t g2 / (G * g2) <= t g1 / (G * g1)) /\
    t gr / (G * gr) = / (1 + beta).
Proof.
  intros gr beta s G Hgr Hb Hs HG. exists (mkz_val gr beta s G).
  assert (Hden := fun g => mkz_den gr beta s g Hgr Hb).
  assert (Hge1 : forall g, 1 <= 1 + beta * pw (Rabs g / gr) s) by (intros; pose proof (pw_nonneg (Rabs g / gr) s); nra).
  split; [intros; apply tau_MKZ_val; auto|].
  split; [unfold mkz_val; unfold Rdiv; lra|].
  split. { intros g. unfold mkz_val. rewrite Rabs_Ropp. field. apply Rgt_not_eq, Hden. }
  split. { intros g. unfold mkz_val. unfold Rdiv. rewrite !Rabs_mult, (Rabs_pos_eq G) by lra.
    rewrite (Rabs_pos_eq (/ _)) by (apply Rlt_le, Rinv_0_lt_compat, Hden).
    rewrite <- (Rmult_1_r (G * Rabs g)) at 2. apply Rmult_le_compat_l.
    - apply Rmult_le_pos; [lra|apply Rabs_pos].
    - apply inv_le_1, Hge1. }
  split. { intros g Hg. unfold mkz_val. apply Rdiv_lt_0_compat; [nra|apply Hden]. }
  split. { intros g Hg. rewrite mkz_ratio by auto. split; [apply Rinv_0_lt_compat, Hden|].
    apply inv_le_1, Hge1. }
  split. { intros g1 g2 [H0 H].
    assert (g1 <> 0) by (intros ->; rewrite Rabs_R0 in H0; lra).
    assert (g2 <> 0) by (intros ->; rewrite Rabs_R0 in H; lra).
    rewrite !mkz_ratio by auto. apply Rinv_le_contravar; [apply Hden|].
    assert (pw (Rabs g1 / gr) s <= pw (Rabs g2 / gr) s).
    { apply pw_le; [|auto]. split; [apply abs_ratio_nonneg; auto|apply ratio_le; auto]. }
    apply Rplus_le_compat_l. apply Rmult_le_compat_l; auto. }
  rewrite mkz_ratio by lra. rewrite (Rabs_pos_eq gr) by lra. replace (gr / gr) with 1 by (field; lra).
  rewrite pw_pos by lra. unfold Rpower. rewrite ln_1, Rmult_0_r, exp_0. f_equal. lra.
Qed.

(** [Gmax] is the initial tangent: the modulus ratio tends to 1 at small strain. *)
Theorem C42_initial_modulus : forall gr beta s G eps, 0 < gr -> 0 < beta -> 0 < s -> 0 < G -> 0 < eps ->
  exists del, 0 < del /\ forall g t, 0 < Rabs g < del -> tau_MKZ gr beta s G g = Fin t -> 1 - eps < t / (G * g).
Proof.
  intros gr beta s G eps Hgr Hb Hs HG Heps.
  assert (Hq : 0 < eps / beta) by (apply Rdiv_lt_0_compat; auto).
  exists (gr * Rpower (eps / beta) (/ s)). split; [apply Rmult_lt_0_compat; [auto|apply Rpower_pos]|].
  intros g t [Hg0 Hg] E. rewrite tau_MKZ_val in E by lra. injection E as <-.
  assert (g <> 0) by (intros ->; rewrite Rabs_R0 in Hg0; lra).
  rewrite mkz_ratio by lra. set (p := pw (Rabs g / gr) s).
  assert (Hp0 : 0 < p) by (apply pw_gt0, Rdiv_lt_0_compat; auto).
  assert (Hp : p < eps / beta).
  { rewrite <- (pw_root (eps / beta) s) by auto. apply pw_lt; [|auto]. split; [apply abs_ratio_nonneg; auto|].
    apply Rmult_lt_reg_r with gr; [auto|]. unfold Rdiv. rewrite Rmult_assoc, Rinv_l by lra. lra. }
  assert (Hbp : beta * p < eps).
  { apply Rmult_lt_compat_l with (r := beta) in Hp; [|auto]. replace (beta * (eps / beta)) with eps in Hp by (field; lra). auto. }
  assert (0 < beta * p) by (apply Rmult_lt_0_compat; auto).
  assert (1 - beta * p < / (1 + beta * p)); [|lra].
  apply Rmult_lt_reg_r with (1 + beta * p); [lra|]. rewrite Rinv_l by lra. nra.
Qed.

(** The backbone rises everywhere iff there is no strain softening: proved for s <= 1. *)
Theorem C42_increasing : forall gr beta s G g1 g2 t1 t2, 0 < gr -> 0 <= beta -> 0 < s <= 1 -> 0 < G -> g1 < g2 ->
  tau_MKZ gr beta s G g1 = Fin t1 -> tau_MKZ gr beta s G g2 = Fin t2 -> t1 < t2.
Proof.
  intros gr beta s G g1 g2 t1 t2 Hgr Hb Hs HG H12 E1 E2.
  rewrite tau_MKZ_val in E1, E2 by lra. injection E1 as <-. injection E2 as <-.
  assert (Hden := fun g => mkz_den gr beta s g Hgr Hb).
  assert (Hpos : forall a b, 0 <= a < b -> mkz_val gr beta s G a < mkz_val gr beta s G b).
  { intros a b [Ha Hab]. destruct (Req_dec a 0) as [->|Ha0].
    - replace (mkz_val gr beta s G 0) with 0 by (unfold mkz_val, Rdiv; lra).
      unfold mkz_val. apply Rdiv_lt_0_compat; [nra|apply Hden].
    - unfold mkz_val. pose proof (Hden a) as Da. pose proof (Hden b) as Db.
      rewrite (Rabs_pos_eq a) in * by lra. rewrite (Rabs_pos_eq b) in * by lra.
      assert (Hsub : a / gr * pw (b / gr) s <= b / gr * pw (a / gr) s).
      { apply pw_sublinear; [|lra]. split; [apply Rdiv_lt_0_compat; lra|].
        apply Rmult_le_compat_r; [apply Rlt_le, Rinv_0_lt_compat; auto|lra]. }
      set (pa := pw (a / gr) s) in *. set (pb := pw (b / gr) s) in *.
      assert (Hsub' : a * pb <= b * pa).
      { apply Rmult_le_compat_r with (r := gr) in Hsub; [|lra].
        replace (a / gr * pb * gr) with (a * pb) in Hsub by (field; lra).
        replace (b / gr * pa * gr) with (b * pa) in Hsub by (field; lra). exact Hsub. }
      apply Rmult_lt_reg_r with ((1 + beta * pa) * (1 + beta * pb)); [apply Rmult_lt_0_compat; auto|].
      replace (G * a / (1 + beta * pa) * ((1 + beta * pa) * (1 + beta * pb))) with (G * (a + beta * (a * pb))) by (field; lra).
      replace (G * b / (1 + beta * pb) * ((1 + beta * pa) * (1 + beta * pb))) with (G * (b + beta * (b * pa))) by (field; lra).
      apply Rmult_lt_compat_l; [auto|]. nra. }
  assert (Hodd : forall g, mkz_val gr beta s G (- g) = - mkz_val gr beta s G g).
  { intros g. unfold mkz_val. rewrite Rabs_Ropp. field. apply Rgt_not_eq, Hden. }
  destruct (Rle_dec 0 g1) as [H1|H1]; [apply Hpos; lra|].
  destruct (Rle_dec g2 0) as [H2|H2].
  - pose proof (Hpos (- g2) (- g1) ltac:(lra)) as X. rewrite !Hodd in X. lra.
  - pose proof (Hpos 0 (- g1) ltac:(lra)) as X. pose proof (Hpos 0 g2 ltac:(lra)) as Y. rewrite Hodd in X.
    replace (mkz_val gr beta s G 0) with 0 in * by (unfold mkz_val, Rdiv; lra). lra.
Qed.

(** For s > 1 the backbone can soften. *)
Theorem C42_increasing_beyond_one_refuted : exists gr beta s G g1 g2 t1 t2,
  0 < gr /\ 0 < beta /\ 1 < s /\ 0 < G /\ 0 < g1 < g2 /\
  tau_MKZ gr beta s G g1 = Fin t1 /\ tau_MKZ gr beta s G g2 = Fin t2 /\ t2 < t1.
Proof.
  exists 1, 1, 2, 1, 1, 3, (mkz_val 1 1 2 1 1), (mkz_val 1 1 2 1 3).
  repeat (split; [lra|]). rewrite !tau_MKZ_val by lra. do 2 (split; [reflexivity|]).
  unfold mkz_val. rewrite !Rabs_pos_eq by lra. rewrite !pw_pos by lra.
  replace 2 with (INR 2) by (cbn; lra). rewrite !Rpower_pow by lra. cbn. lra.
Qed.

Example C42_instance : exists t, tau_MKZ 1 1 1 2 3 = Fin t /\ t = 3 / 2.
Proof.
  exists (mkz_val 1 1 1 2 3). rewrite tau_MKZ_val by lra. split; [reflexivity|].
  unfold mkz_val. rewrite Rabs_pos_eq, pw_pos, Rpower_1 by lra. field.
Qed.

(** ** C43 FKZ *)
Theorem C43_FKZ_law : forall G mu d T, 0 < G -> 0 < mu -> 0 < d -> 0 < T ->
  exists t : R -> R, (forall g, 0 <= g -> tau_FKZ G mu d T g = Fin (t g)) /\
    t 0 = 0 /\ (forall g, 0 <= g -> 0 <= t g < T) /\
    (forall g1 g2, 0 <= g1 < g2 -> t g1 < t g2) /\
    (forall eps, 0 < eps -> exists g, 0 < g /\ T - eps < t g).
Proof.
  intros G mu d T HG Hm Hd HT. exists (fkz_val G mu d T).
  assert (Hden := fun g => fkz_den G mu d T g HG Hm HT).
  assert (Hk : 0 < G / T * mu) by (apply Rmult_lt_0_compat; [apply Rdiv_lt_0_compat; auto|auto]).
  split; [intros; apply tau_FKZ_val; auto|].
  split. { unfold fkz_val. rewrite pw_0. unfold Rdiv. lra. }
  split. { intros g Hg. split.
    - unfold fkz_val. apply Rmult_le_pos; [|apply Rlt_le, Rinv_0_lt_compat, Hden].
      apply Rmult_le_pos; [nra|apply pw_nonneg].
    - rewrite fkz_below by auto. assert (0 < T / (1 + G / T * mu * pw g d)) by (apply Rdiv_lt_0_compat; [auto|apply Hden]). lra. }
  split. { intros g1 g2 H. rewrite !fkz_below by auto. pose proof (pw_lt g1 g2 d H Hd) as Hp.
    assert (T / (1 + G / T * mu * pw g2 d) < T / (1 + G / T * mu * pw g1 d)); [|lra].
    apply Rmult_lt_compat_l; [auto|]. apply Rinv_lt_contravar; [apply Rmult_lt_0_compat; apply Hden|]. nra. }
  intros eps He.
  set (x := T / eps / (G / T * mu)). assert (Hx : 0 < x) by (repeat apply Rdiv_lt_0_compat; auto).
  exists (Rpower x (/ d)). split; [apply Rpower_pos|]. rewrite fkz_below, pw_root by auto.
  unfold x. replace (G / T * mu * (T / eps / (G / T * mu))) with (T / eps) by (field; lra).
  assert (T / (1 + T / eps) < eps); [|lra].
  assert (0 < T / eps) by (apply Rdiv_lt_0_compat; auto).
  apply Rmult_lt_reg_r with (1 + T / eps); [lra|]. unfold Rdiv at 1. rewrite Rmult_assoc, Rinv_l by lra.
  replace (eps * (1 + T / eps)) with (eps + T) by (field; lra). lra.
Qed.

(** Finding: unlike MKZ, the law is not usable at negative strain. *)
Theorem C43_negative_strain_is_nan : forall G mu d T g, g < 0 -> d <> IZR (Int_part d) -> tau_FKZ G mu d T g = NaN.
Proof. intros. unfold tau_FKZ. rewrite npow_neg_nan by auto. reflexivity. Qed.

Lemma Int_part_half : Int_part (1/2) = 0%Z.
Proof.
  unfold Int_part. assert (E : up (1/2) = 1%Z) by (symmetry; apply tech_up; cbn; lra). rewrite E. reflexivity.
Qed.

Example C43_instance : tau_FKZ 1 1 (1/2) 1 (-1) = NaN /\ tau_FKZ 1 1 (1/2) 1 1 = Fin (1/2).
Proof.
  split.
  - apply C43_negative_strain_is_nan; [lra|]. rewrite Int_part_half. lra.
  - rewrite tau_FKZ_val by lra. f_equal. unfold fkz_val. rewrite pw_pos by lra.
    unfold Rpower. rewrite ln_1, Rmult_0_r, exp_0. field.
Qed.

(** ** C44 HH *)
Theorem C44_transition : forall a gt gs, 0 < a ->
  (gt <= 0 -> transition_function a gt gs = Err AssertionError) /\
  (0 < gt -> exists w : R -> R, transition_function a gt gs = Ok (map w gs) /\ w 0 = 1 /\
     (forall g, 0 <= w g <= 1) /\ (forall g, w (- g) = w g) /\
     (forall g1 g2, Rabs g1 <= Rabs g2 -> w g2 <= w g1)).
Proof.
  intros a gt gs Ha. unfold transition_function. split; intros Hgt.
  - rewrite (proj2 (Rltb_false 0 gt)) by lra. reflexivity.
  - rewrite (proj2 (Rltb_true 0 gt)) by lra. exists (transition a gt). split; [reflexivity|].
    split; [unfold transition; rewrite (proj2 (Reqb_true 0 0) eq_refl); reflexivity|].
    split; [apply transition_bounds|]. split; [|intros; apply transition_decr; auto].
    intros g. destruct (Req_dec g 0) as [->|Hg]; [rewrite Ropp_0; reflexivity|].
    rewrite !transition_nz by lra. unfold tr_exp. rewrite Rabs_Ropp. reflexivity.
Qed.

(** The transition is complete at both ends of the strain axis. *)
Theorem C44_transition_limits : forall a gt, 0 < a -> 0 < gt ->
  exists lo hi, 0 < lo < hi /\ (forall g, Rabs g < lo -> transition a gt g = 1) /\ (forall g, hi < Rabs g -> transition a gt g = 0).
Proof.
  intros a gt Ha Hgt. set (c := 4039/1000 * Rpower a (- (1036/1000))).
  set (lo := gt * Rpower 10 (c - 305 / a)). set (hi := gt * Rpower 10 (c + 305 / a)).
  assert (Hd : 0 < 305 / a) by (apply Rdiv_lt_0_compat; lra).
  assert (Hlog : forall x, log10 (Rpower 10 x) = x).
  { intros x. unfold log10, Rpower. rewrite ln_exp. field. pose proof ln10_pos. lra. }
  assert (Hlo : 0 < lo) by (apply Rmult_lt_0_compat; [auto|apply Rpower_pos]).
  exists lo, hi. split; [split; [exact Hlo|]|split].
  - unfold lo, hi. apply Rmult_lt_compat_l; [auto|]. apply Rpower_lt; lra.
  - intros g Hg. destruct (Req_dec g 0) as [->|Hg0]; [unfold transition; rewrite (proj2 (Reqb_true 0 0) eq_refl); reflexivity|].
    rewrite transition_nz by auto. rewrite (proj2 (Rltb_true 305 _)); [reflexivity|].
    assert (Hp : 0 < Rabs g) by (apply Rabs_pos_lt; auto). unfold tr_exp. fold c.
    assert (Hl : log10 (Rabs g / gt) < c - 305 / a).
    { rewrite <- (Hlog (c - 305 / a)). unfold log10. apply Rmult_lt_compat_r; [apply Rinv_0_lt_compat, ln10_pos|].
      apply ln_increasing; [apply Rdiv_lt_0_compat; auto|]. apply Rmult_lt_reg_r with gt; [auto|].
      unfold Rdiv. rewrite Rmult_assoc, Rinv_l by lra. unfold lo in Hg. lra. }
    assert (He : a * (305 / a) = 305) by (field; lra). nra.
  - intros g Hg. assert (Hp : 0 < Rabs g).
    { apply Rlt_trans with hi; [|exact Hg]. apply Rmult_lt_0_compat; [auto|apply Rpower_pos]. }
    assert (Hg0 : g <> 0) by (intros ->; rewrite Rabs_R0 in Hp; lra).
    rewrite transition_nz by auto. unfold tr_exp. fold c.
    assert (Hl : c + 305 / a < log10 (Rabs g / gt)).
    { rewrite <- (Hlog (c + 305 / a)). unfold log10. apply Rmult_lt_compat_r; [apply Rinv_0_lt_compat, ln10_pos|].
      apply ln_increasing; [apply Rpower_pos|]. apply Rmult_lt_reg_r with gt; [auto|].
      unfold Rdiv. rewrite Rmult_assoc, Rinv_l by lra. unfold hi in Hg. lra. }
    assert (He : a * (305 / a) = 305) by (field; lra).
    rewrite (proj2 (Rltb_false 305 _)) by nra. rewrite (proj2 (Rltb_true _ (-305))) by nra. reflexivity.
Qed.

Theorem C44_HH_between_branches : forall gt a gr beta s G mu T d g,
  0 < gt -> 0 < a -> 0 < gr -> 0 <= beta -> 0 < s -> 0 < G -> 0 < mu -> 0 < T -> 0 < d -> 0 <= g ->
  exists x y z, tau_MKZ gr beta s G g = Fin x /\ tau_FKZ G mu d T g = Fin y /\
    tau_HH_at gt a gr beta s G mu T d g = Fin z /\ Rmin x y <= z <= Rmax x y /\ (g = 0 -> z = 0).
Proof.
  intros gt a gr beta s G mu T d g Hgt Ha Hgr Hb Hs HG Hm HT Hd Hg.
  set (x := mkz_val gr beta s G g). set (y := fkz_val G mu d T g).
  exists x, y, (transition a gt g * x + (1 - transition a gt g) * y).
  unfold tau_HH_at. rewrite tau_MKZ_val, tau_FKZ_val by auto. fold x y.
  do 3 (split; [reflexivity|]). pose proof (transition_bounds a gt g). split.
  - unfold Rmin, Rmax. destruct (Rle_dec x y); nra.
  - intros ->. unfold x, y, mkz_val, fkz_val. rewrite pw_0. unfold Rdiv. lra.
Qed.

(** HH equals MKZ at small strain and FKZ (hence stays below the strength) at
    large strain. *)
Theorem C44_HH_ends : forall gt a gr beta s G mu T d,
  0 < gt -> 0 < a -> 0 < gr -> 0 <= beta -> 0 < s -> 0 < G -> 0 < mu -> 0 < T -> 0 < d ->
  exists lo hi, 0 < lo < hi /\
    (forall g, 0 <= g < lo -> tau_HH_at gt a gr beta s G mu T d g = tau_MKZ gr beta s G g) /\
    (forall g, hi < g -> tau_HH_at gt a gr beta s G mu T d g = tau_FKZ G mu d T g).
Proof.
  intros gt a gr beta s G mu T d Hgt Ha Hgr Hb Hs HG Hm HT Hd.
  destruct (C44_transition_limits a gt Ha Hgt) as (lo & hi & Hlh & Hl & Hh).
  exists lo, hi. split; [exact Hlh|]. split; intros g Hg; unfold tau_HH_at; rewrite tau_MKZ_val, tau_FKZ_val by lra.
  - rewrite Hl by (rewrite Rabs_pos_eq; lra). f_equal. lra.
  - rewrite Hh by (rewrite Rabs_pos_eq; lra). f_equal. lra.
Qed.

(** Finding: HH stress at negative strain is NaN for non-integer [d]. *)
Theorem C44_HH_negative_strain_is_nan : forall gt a gr beta s G mu T d g, g < 0 -> d <> IZR (Int_part d) ->
  tau_HH_at gt a gr beta s G mu T d g = NaN.
Proof.
  intros. unfold tau_HH_at. rewrite C43_negative_strain_is_nan by auto. destruct (tau_MKZ gr beta s G g); reflexivity.
Qed.

Example C44_instance : exists z, tau_HH_at 1 1 1 1 1 1 1 1 (1/2) 0 = Fin z /\ tau_HH_at 1 1 1 1 1 1 1 1 (1/2) (-1) = NaN.
Proof.
  destruct (C44_HH_between_branches 1 1 1 1 1 1 1 1 (1/2) 0) as (x & y & z & _ & _ & E & _); try lra.
  exists z. split; [exact E|]. apply C44_HH_negative_strain_is_nan; [lra|]. rewrite Int_part_half. lra.
Qed.

(** ** C45 damping *)
Definition nonzero (l : list R) : Prop := Forall (fun x => x <> 0) l.

(** Masing damping ratio of point [k], from the area below the polygon through
    the origin and the given points. *)
Definition masing (strain stress : list R) (k : nat) : R :=
  2 / PI * (2 * area_to 0 0 (combine strain stress) k / (nth k strain 0 * nth k stress 0) - 1).

(** The curve is the clipped Masing damping; in particular it does not depend on [Gmax]. *)
Theorem C45_damping_curve : forall strain stress G, length strain = length stress -> strain <> [] -> G <> 0 ->
  nonzero strain -> nonzero stress ->
  exists ds, calc_damping strain stress G = Ok ds /\ length ds = length strain /\
    (forall k, (k < length strain)%nat -> nth k ds 0 = Rmax (masing strain stress k) 0) /\
    nth 0 ds 0 = 0 /\ Forall (fun x => 0 <= x) ds.
Proof.
  intros strain stress G HL Hne HG He Ht.
  destruct (calc_damping_spec strain stress G HL Hne HG He Ht) as (ds & E & L & H). exists ds.
  split; [exact E|]. split; [exact L|]. split; [exact H|]. split.
  - rewrite H by (destruct strain; [congruence|cbn; lia]).
    destruct strain as [|e0 es]; [congruence|]. destruct stress as [|t0 ts]; [discriminate|].
    pose proof (Forall_inv He) as He0. pose proof (Forall_inv Ht) as Ht0. cbn in He0, Ht0. cbn [combine area_to nth].
    replace (2 / PI * _) with 0; [apply Rmax_left; lra|]. field. split; [auto|split; [auto|apply PI_neq0]].
  - apply Forall_forall. intros x Hx. apply (In_nth _ _ 0) in Hx as (k & Hk & <-). rewrite H by lia. apply Rmax_r.
Qed.

Theorem C45_strain_starting_at_zero : forall strain stress G, hd_error strain = Some 0 ->
  calc_damping strain stress G = Err ValueError.
Proof.
  intros [|e0 es] stress G H; [discriminate|]. injection H as ->. unfold calc_damping, calc_GGmax, get. cbn.
  rewrite (proj2 (Reqb_true 0 0) eq_refl). reflexivity.
Qed.

Theorem C45_linear_elastic : forall strain c G, strain <> [] -> G <> 0 -> c <> 0 -> nonzero strain ->
  exists ds, calc_damping strain (map (fun e => c * e) strain) G = Ok ds /\ Forall (fun x => x = 0) ds.
Proof.
  intros strain c G Hne HG Hc He.
  assert (Ht : nonzero (map (fun e => c * e) strain)).
  { unfold nonzero. rewrite Forall_map. eapply Forall_impl; [|exact He]. cbn. intros x Hx Hz. apply Rmult_integral in Hz. tauto. }
  destruct (C45_damping_curve strain _ G ltac:(rewrite map_length; reflexivity) Hne HG He Ht) as (ds & E & L & H & _).
  exists ds. split; [exact E|]. apply Forall_forall. intros x Hx. apply (In_nth _ _ 0) in Hx as (k & Hk & <-).
  rewrite L in Hk. rewrite H by auto.
  assert (Ha : forall es pe k, (k < length es)%nat ->
    area_to pe (c * pe) (combine es (map (fun e => c * e) es)) k = c * nth k es 0 * nth k es 0 / 2 - c * pe * pe / 2).
  { clear. induction es as [|e es IH]; intros pe [|k] Hk; cbn in Hk; try lia; cbn [combine map area_to nth].
    - field.
    - rewrite IH by lia. field. }
  unfold masing. rewrite <- (Rmult_0_r c) at 2. rewrite Ha by auto. rewrite nth_map_fin by auto.
  assert (Hk0 : nth k strain 0 <> 0) by (eapply (proj1 (Forall_forall _ _) He); apply nth_In; auto).
  replace (2 / PI * _) with 0; [apply Rmax_left; lra|]. field. split; [auto|split; [auto|apply PI_neq0]].
Qed.

(** Increasing positive strains with non-decreasing positive stresses: damping at
    most 2/pi. *)
Definition increasing0 (l : list R) : Prop :=
  forall k, (k < length l)%nat -> (if Nat.eqb k 0 then 0 else nth (k - 1) l 0) < nth k l 0.
Definition nondecreasing0 (l : list R) : Prop :=
  forall k, (k < length l)%nat -> (if Nat.eqb k 0 then 0 else nth (k - 1) l 0) <= nth k l 0.

Lemma increasing0_pos l : increasing0 l -> forall k, (k < length l)%nat -> 0 < nth k l 0.
Proof.
  intros H k. induction k as [|k IH]; intros Hk; [apply (H 0%nat Hk)|].
  specialize (H (S k) Hk). cbn [Nat.eqb] in H. replace (S k - 1)%nat with k in H by lia.
  specialize (IH ltac:(lia)). lra.
Qed.

Theorem C45_damping_bounded : forall strain stress G ds, length strain = length stress -> G <> 0 ->
  increasing0 strain -> nondecreasing0 stress -> nonzero stress ->
  calc_damping strain stress G = Ok ds -> Forall (fun x => 0 <= x <= 2 / PI) ds.
Proof.
  intros strain stress G ds HL HG Hs Ht Htz E.
  destruct strain as [|e0 es]; [unfold calc_damping, calc_GGmax, get in E; discriminate|].
  set (strain := e0 :: es) in *. assert (Hp := increasing0_pos _ Hs).
  assert (Hsz : nonzero strain).
  { apply Forall_forall. intros x Hx. apply (In_nth _ _ 0) in Hx as (k & Hk & <-). specialize (Hp k Hk). lra. }
  destruct (C45_damping_curve strain stress G HL ltac:(discriminate) HG Hsz Htz) as (ds' & E' & L & H & _ & Hpos).
  rewrite E in E'. injection E' as <-. pose proof PI_RGT_0 as HPI.
  assert (HI : 0 < / PI) by (apply Rinv_0_lt_compat; auto).
  apply Forall_forall. intros x Hx. apply (In_nth _ _ 0) in Hx as (k & Hk & <-). rewrite L in Hk.
  split; [rewrite H by auto; apply Rmax_r|]. rewrite H by auto. apply Rmax_lub; [|unfold Rdiv; lra].
  unfold masing.
  assert (Hc : forall i, nth i (combine strain stress) (0, 0) = (nth i strain 0, nth i stress 0)) by (intros; apply nth_combine0; auto).
  destruct (area_upper (combine strain stress) 0 0 k) as [HA HT]; try lra.
  { rewrite combine_length. lia. }
  { intros i Hi. rewrite combine_length in Hi. rewrite !Hc. cbn [fst snd].
    pose proof (Hs i ltac:(lia)). pose proof (Ht i ltac:(lia)). lra. }
  rewrite Hc in HA, HT. cbn [fst snd] in HA, HT.
  set (A := area_to 0 0 (combine strain stress) k) in *. set (e := nth k strain 0) in *. set (t := nth k stress 0) in *.
  assert (He : 0 < e) by (apply Hp; auto).
  assert (Htk : t <> 0) by (eapply (proj1 (Forall_forall _ _) Htz); apply nth_In; lia).
  assert (Het : 0 < e * t) by (apply Rmult_lt_0_compat; lra).
  rewrite <- (Rmult_1_r (2 / PI)) at 2. apply Rmult_le_compat_l; [unfold Rdiv; lra|].
  assert (2 * A / (e * t) <= 2); [|lra].
  apply Rmult_le_reg_r with (e * t); [auto|]. unfold Rdiv. rewrite Rmult_assoc, Rinv_l by lra. lra.
Qed.

(** If the secant modulus never increases the clipping is inactive. *)
Theorem C45_no_clipping : forall strain stress G ds, length strain = length stress -> G <> 0 ->
  increasing0 strain -> nonzero stress ->
  (forall k, (k < length stress)%nat -> 0 < nth k stress 0) ->
  (forall k, (S k < length strain)%nat -> nth (S k) stress 0 / nth (S k) strain 0 <= nth k stress 0 / nth k strain 0) ->
  calc_damping strain stress G = Ok ds ->
  forall k, (k < length strain)%nat -> nth k ds 0 = masing strain stress k.
Proof.
  intros strain stress G ds HL HG Hs Htz Htp Hsec E k Hk.
  destruct strain as [|e0 es]; [unfold calc_damping, calc_GGmax, get in E; discriminate|].
  set (strain := e0 :: es) in *. assert (Hp := increasing0_pos _ Hs).
  assert (Hsz : nonzero strain).
  { apply Forall_forall. intros x Hx. apply (In_nth _ _ 0) in Hx as (j & Hj & <-). specialize (Hp j Hj). lra. }
  destruct (C45_damping_curve strain stress G HL ltac:(discriminate) HG Hsz Htz) as (ds' & E' & L & H & _).
  rewrite E in E'. injection E' as <-. pose proof PI_RGT_0 as HPI.
  assert (HI : 0 < / PI) by (apply Rinv_0_lt_compat; auto).
  rewrite H by auto. apply Rmax_left. unfold masing.
  assert (Hc : forall i, nth i (combine strain stress) (0, 0) = (nth i strain 0, nth i stress 0)) by (intros; apply nth_combine0; auto).
  assert (HA : nth k strain 0 * nth k stress 0 / 2 <= 0 + area_to 0 0 (combine strain stress) k).
  { pose proof (area_lower (combine strain stress) 0 0 k 0) as X. rewrite Hc in X. cbn [fst snd] in X. apply X; try lra.
    - rewrite combine_length. lia.
    - intros i Hi. rewrite combine_length in Hi. rewrite !Hc. cbn [fst snd]. destruct i as [|i]; cbn [Nat.eqb].
      + lra.
      + replace (S i - 1)%nat with i by lia. pose proof (Hsec i ltac:(lia)) as Hq.
        pose proof (Hp i ltac:(lia)) as P1. pose proof (Hp (S i) ltac:(lia)) as P2.
        apply Rmult_le_compat_r with (r := nth i strain 0 * nth (S i) strain 0) in Hq; [|apply Rlt_le, Rmult_lt_0_compat; auto].
        replace (nth (S i) stress 0 / nth (S i) strain 0 * (nth i strain 0 * nth (S i) strain 0))
          with (nth i strain 0 * nth (S i) stress 0) in Hq by (field; lra).
        replace (nth i stress 0 / nth i strain 0 * (nth i strain 0 * nth (S i) strain 0))
          with (nth (S i) strain 0 * nth i stress 0) in Hq by (field; lra). exact Hq.
    - intros i Hi. rewrite combine_length in Hi. rewrite Hc. apply Hp. lia. }
  pose proof (Hp k Hk) as He. pose proof (Htp k ltac:(lia)) as Ht.
  assert (Het : 0 < nth k strain 0 * nth k stress 0) by (apply Rmult_lt_0_compat; auto).
  apply Rmult_le_pos; [unfold Rdiv; lra|].
  assert (1 <= 2 * area_to 0 0 (combine strain stress) k / (nth k strain 0 * nth k stress 0)); [|lra].
  apply Rmult_le_reg_r with (nth k strain 0 * nth k stress 0); [auto|]. unfold Rdiv. rewrite Rmult_assoc, Rinv_l by lra. lra.
Qed.

(** The MKZ law satisfies both sets of conditions. *)
Theorem C45_MKZ_damping : forall gr beta s G strain ts, 0 < gr -> 0 <= beta -> 0 < s <= 1 -> 0 < G ->
  increasing0 strain -> strain <> [] -> map (tau_MKZ gr beta s G) strain = map Fin ts ->
  exists ds, calc_damping strain ts G = Ok ds /\ Forall (fun x => 0 <= x <= 2 / PI) ds /\
    forall k, (k < length strain)%nat -> nth k ds 0 = masing strain ts k.
Proof.
  intros gr beta s G strain ts Hgr Hb Hs HG Hinc Hne HT.
  assert (HL : length strain = length ts) by (apply (f_equal (@length _)) in HT; rewrite !map_length in HT; exact HT).
  assert (Hp := increasing0_pos _ Hinc).
  assert (Hts : forall k, (k < length strain)%nat -> tau_MKZ gr beta s G (nth k strain 0) = Fin (nth k ts 0)).
  { intros k Hk. rewrite <- (map_nth (tau_MKZ gr beta s G) strain 0 k), <- (map_nth Fin ts 0 k), HT. apply nth_indep.
    rewrite map_length. lia. }
  destruct (C42_MKZ_law gr beta s G Hgr Hb ltac:(lra) HG) as (t & Et & _ & _ & _ & Hpos & _ & Hdec & _).
  assert (Hv : forall k, (k < length strain)%nat -> nth k ts 0 = t (nth k strain 0)).
  { intros k Hk. specialize (Hts k Hk). rewrite Et in Hts. injection Hts as ->. reflexivity. }
  assert (Htp : forall k, (k < length ts)%nat -> 0 < nth k ts 0).
  { intros k Hk. rewrite Hv by lia. apply Hpos, Hp. lia. }
  assert (Htz : nonzero ts).
  { apply Forall_forall. intros x Hx. apply (In_nth _ _ 0) in Hx as (j & Hj & <-). specialize (Htp j Hj). lra. }
  assert (Hsz : nonzero strain).
  { apply Forall_forall. intros x Hx. apply (In_nth _ _ 0) in Hx as (j & Hj & <-). specialize (Hp j Hj). lra. }
  destruct (C45_damping_curve strain ts G HL Hne ltac:(lra) Hsz Htz) as (ds & E & _).
  exists ds. split; [exact E|]. split.
  - eapply (C45_damping_bounded strain ts G); eauto; [lra|]. intros k Hk. destruct k as [|k]; cbn [Nat.eqb].
    + apply Rlt_le, Htp. exact Hk.
    + replace (S k - 1)%nat with k by lia. apply Rlt_le. eapply (C42_increasing gr beta s G (nth k strain 0) (nth (S k) strain 0)); eauto.
      * specialize (Hinc (S k) ltac:(lia)). cbn [Nat.eqb] in Hinc. replace (S k - 1)%nat with k in Hinc by lia. exact Hinc.
      * apply Hts. lia.
      * apply Hts. lia.
  - eapply (C45_no_clipping strain ts G); eauto; [lra|]. intros k Hk. rewrite !Hv by lia.
    specialize (Hinc (S k) Hk). cbn [Nat.eqb] in Hinc. replace (S k - 1)%nat with k in Hinc by lia.
    pose proof (Hp k ltac:(lia)) as P1. pose proof (Hp (S k) Hk) as P2.
    pose proof (Hdec (nth k strain 0) (nth (S k) strain 0)) as X. rewrite !Rabs_pos_eq in X by lra. specialize (X ltac:(lra)).
    apply Rmult_le_compat_r with (r := G) in X; [|lra].
    replace (t (nth (S k) strain 0) / (G * nth (S k) strain 0) * G) with (t (nth (S k) strain 0) / nth (S k) strain 0) in X by (field; lra).
    replace (t (nth k strain 0) / (G * nth k strain 0) * G) with (t (nth k strain 0) / nth k strain 0) in X by (field; lra). exact X.
Qed.

(** The modulus reduction curve: secant moduli over the given modulus, or over the first secant
    modulus when none is given. *)
Theorem C45_modulus_reduction : forall strain stress Gmax l,
  calc_GGmax strain stress Gmax = Ok l <->
  strain <> [] /\ nth 0 strain 0 <> 0 /\ length stress = length strain /\ length l = length strain /\
  (forall k, (k < length strain)%nat ->
     nth k l 0 = nth k stress 0 / nth k strain 0 / match Gmax with Some g => g | None => nth 0 stress 0 / nth 0 strain 0 end).
Proof.
  intros [|e0 es] stress Gmax l; [unfold calc_GGmax, get; cbn; split; [discriminate|intros (N & _); congruence]|].
  unfold calc_GGmax. cbn [get nth_error nth bind]. destruct (Reqb_spec e0 0) as [E0|E0]; cbn [negb]; [split; [discriminate|intros (_ & N & _); contradiction]|].
  set (g := match Gmax with Some g => g | None => nth 0 stress 0 / e0 end).
  assert (EG : (stress = [] /\ Gmax = None) \/ (match Gmax with Some g => Ok g | None => let! t0 := get stress 0 in Ok (t0 / e0) end) = Ok g).
  { unfold g. destruct Gmax as [g'|]; [auto|]. destruct stress as [|t0 ts]; [auto|]. right. reflexivity. }
  destruct EG as [[-> ->]|EG]; [cbn; split; [discriminate|intros (_ & _ & N & _); discriminate]|]. rewrite EG. cbn [bind].
  destruct (Nat.eqb_spec (length (e0 :: es)) (length stress)) as [EL|NL]; [|split; [discriminate|intros (_ & _ & N & _); congruence]].
  assert (F : forall k, (k < length (e0 :: es))%nat -> nth k (map (fun te => fst te / snd te / g) (combine stress (e0 :: es))) 0 = nth k stress 0 / nth k (e0 :: es) 0 / g).
  { intros k Hk. rewrite (nth_indep _ 0 ((fun te => fst te / snd te / g) (0, 0))) by (rewrite map_length, combine_length; lia).
    rewrite (map_nth (fun te => fst te / snd te / g)), combine_nth by congruence. reflexivity. }
  assert (L : length (map (fun te => fst te / snd te / g) (combine stress (e0 :: es))) = length (e0 :: es)) by (rewrite map_length, combine_length; lia).
  split.
  - intros [= <-]. split; [discriminate|]. split; [exact E0|]. split; [auto|]. split; [exact L|exact F].
  - intros (_ & _ & _ & Ll & H). f_equal. apply (nth_ext _ _ 0 0); [congruence|]. intros k Hk. rewrite L in Hk. rewrite F, H by exact Hk. reflexivity.
Qed.
Theorem C45_modulus_reduction_default : forall strain stress l c, calc_GGmax strain stress None = Ok l -> nth 0 stress 0 <> 0 -> c <> 0 ->
  nth 0 l 0 = 1 /\ calc_GGmax strain (map (fun t => c * t) stress) None = Ok l.
Proof.
  intros strain stress l c H T C. apply C45_modulus_reduction in H as (N & E0 & L & Ll & H). assert (P : (0 < length strain)%nat) by (destruct strain; [congruence|cbn; lia]).
  split; [rewrite H by exact P; field; auto|]. apply C45_modulus_reduction. rewrite map_length. do 4 (split; [assumption|]).
  intros k Hk. rewrite !nth_map_fin by lia. rewrite H by exact Hk. unfold Rdiv. rewrite !Rinv_mult.
  assert (E : / c * c = 1) by (field; exact C). transitivity (nth k stress 0 * / nth k strain 0 * (/ nth 0 stress 0 * / / nth 0 strain 0) * (/ c * c)); [rewrite E; ring|ring].
Qed.
Example C45_modulus_instance : exists l, calc_GGmax [1; 2] [2; 3] None = Ok l /\ nth 1 l 0 = 3 / 4.
Proof.
  exists [2 / 1 / (2 / 1); 3 / 2 / (2 / 1)]. split; [|cbn; field]. apply C45_modulus_reduction. split; [discriminate|]. split; [cbn; lra|]. split; [reflexivity|]. split; [reflexivity|].
  intros [|[|k]] Hk; cbn in Hk |- *; [reflexivity|reflexivity|lia].
Qed.

Example C45_instance : exists ds, calc_damping [1; 2] [1; 3/2] 1 = Ok ds /\ nth 1 ds 0 = 2 / PI * (1/6) /\
  increasing0 [1; 2] /\ nonzero [1; 3/2].
Proof.
  assert (N1 : nonzero [1; 2]) by (constructor; [lra|constructor; [lra|constructor]]).
  assert (N2 : nonzero [1; 3/2]) by (constructor; [lra|constructor; [lra|constructor]]).
  destruct (C45_damping_curve [1; 2] [1; 3/2] 1 eq_refl ltac:(discriminate) ltac:(lra) N1 N2) as (ds & E & _ & H & _).
  exists ds. split; [exact E|]. split; [|split; [intros [|[|k]] Hk; cbn in *; try lra; lia|exact N2]].
  rewrite H by (cbn; lia). unfold masing. cbn [combine area_to nth]. pose proof PI_RGT_0 as HPI.
  replace (2 / PI * (2 * ((0 + 1) / 2 * (1 - 0) + ((1 + 3/2) / 2 * (2 - 1) + 0)) / (2 * (3/2)) - 1)) with (2 / PI * (1/6)) by (field; lra).
  apply Rmax_left. apply Rmult_le_pos; [|lra]. apply Rmult_le_pos; [lra|]. apply Rlt_le, Rinv_0_lt_compat; auto.
Qed.
