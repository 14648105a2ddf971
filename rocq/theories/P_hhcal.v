(** Lemmas about the HH calibration. *)
From Coq Require Import Reals List Bool ZArith Lia Lra.
From Coquelicot Require Import Coquelicot.
From Coq Require Import List.
From Verif Require Import Base M_generic P_generic M_profile P_profile M_soil P_soil M_motion M_interp P_interp M_hhcal.
Import ListNotations.
Open Scope R_scope.

Lemma zipw_length {A B C} (f : A -> B -> C) a b : length a = length b -> length (zipw f a b) = length a.
Proof. intros H. unfold zipw. rewrite map_length, combine_length. lia. Qed.
Lemma zipw_nth {A B C} (f : A -> B -> C) a b k da db dc : length a = length b -> (k < length a)%nat ->
  nth k (zipw f a b) dc = f (nth k a da) (nth k b db).
Proof.
  intros H Hk. unfold zipw. rewrite (nth_indep _ dc (f (fst (da, db)) (snd (da, db)))) by (rewrite map_length, combine_length; lia).
  rewrite (map_nth (fun p => f (fst p) (snd p))). rewrite combine_nth by exact H. reflexivity.
Qed.

(** ** Vertical stress *)
(** Weight per area of the first [k] layers. *)
Definition weight_above (h rho : list R) (k : nat) : R :=
  rsum (map (fun p => snd p * grav * fst p) (firstn k (combine h rho))).

Lemma stress_scan_length hr : forall s half, length (stress_scan s half hr) = length hr.
Proof. induction hr as [|[h r] hr IH]; intros; cbn; [reflexivity|]. rewrite IH. reflexivity. Qed.

Lemma stress_scan_nth hr : forall s half k, (k < length hr)%nat ->
  nth k (stress_scan s half hr) 0 =
  s + half + rsum (map (fun p => snd p * grav * fst p) (firstn k hr)) + snd (nth k hr (0, 0)) * grav * fst (nth k hr (0, 0)) / 2.
Proof.
  induction hr as [|[h r] hr IH]; intros s half k Hk; [cbn in Hk; lia|].
  destruct k as [|k]; cbn [nth stress_scan firstn map rsum fst snd]; [lra|].
  cbn in Hk. rewrite IH by lia. lra.
Qed.

(** ** Density *)
Lemma rho_at_ge z v : 1650 <= rho_at z v.
Proof. unfold rho_at. destruct (Reqb z 0); pose proof (Rmax_l (165/100) (1 + 1 / rho_den z v)); pose proof (Rmax_l (165/100) (1 + 1 / rho_den (1/10000) v)); lra. Qed.

Lemma log10_pow10 x : log10 (Rpower 10 x) = x.
Proof. unfold log10, Rpower. rewrite ln_exp. field. pose proof ln10_pos; lra. Qed.
Lemma pow10_log10 x : 0 < x -> Rpower 10 (log10 x) = x.
Proof.
  intros Hx. unfold log10, Rpower. replace (ln x / ln 10 * ln 10) with (ln x) by (field; pose proof ln10_pos; lra). apply exp_ln, Hx.
Qed.
Lemma log10_le x y : 0 < x -> x <= y -> log10 x <= log10 y.
Proof.
  intros Hx Hy. unfold log10. apply Rmult_le_compat_r; [apply Rlt_le, Rinv_0_lt_compat, ln10_pos|].
  destruct (Rle_lt_or_eq_dec x y Hy) as [H|H]; [left; apply ln_increasing; lra|subst; lra].
Qed.

Lemma rho_at_le z v : 0 < v -> Rpower 10 (- (1095/1000)) <= z -> rho_at z v <= 1000 * (1 + 1000/614).
Proof.
  intros Hv Hz. pose proof (Rpower_pos 10 (- (1095/1000))) as Hp. unfold rho_at.
  rewrite (proj2 (Reqb_false z 0)) by lra.
  assert (Hl : - (1095/1000) <= log10 z) by (rewrite <- (log10_pow10 (- (1095/1000))); apply log10_le; lra).
  assert (Hd : 614/1000 <= rho_den z v).
  { unfold rho_den. assert (0 <= 587/10 * (log10 z + 1095/1000) / v); [|lra].
    apply Rmult_le_pos; [lra|apply Rlt_le, Rinv_0_lt_compat; lra]. }
  assert (1 / rho_den z v <= 1000/614).
  { replace (1000/614) with (1 / (614/1000)) by field. unfold Rdiv. rewrite !Rmult_1_l. apply Rinv_le_contravar; lra. }
  assert (Rmax (165/100) (1 + 1 / rho_den z v) <= 1 + 1000/614) by (apply Rmax_lub; lra). lra.
Qed.

(** ** Trigonometry of a friction angle *)
Lemma deg2rad_range phi : 0 < phi < 90 -> 0 < deg2rad phi < PI / 2.
Proof. intros H. unfold deg2rad. pose proof PI_RGT_0. split; nra. Qed.
Lemma sin_phi phi : 0 < phi < 90 -> 0 < sin (deg2rad phi) < 1.
Proof.
  intros H. pose proof (deg2rad_range phi H) as D. pose proof PI_RGT_0. split; [apply sin_gt_0; lra|].
  rewrite <- sin_PI2. apply sin_increasing_1; lra.
Qed.
Lemma tan_phi phi : 0 < phi < 90 -> 0 < tan (deg2rad phi).
Proof. intros H. pose proof (deg2rad_range phi H). apply tan_gt_0; lra. Qed.
Lemma sin_30 : sin (deg2rad 30) = 1/2.
Proof. unfold deg2rad. replace (30 * PI / 180) with (PI / 6) by field. rewrite sin_PI6. lra. Qed.

Lemma K0_pos phi o : 0 < phi < 90 -> 0 < K0_at phi o.
Proof. intros H. pose proof (sin_phi phi H). unfold K0_at. apply Rmult_lt_0_compat; [lra|apply Rpower_pos]. Qed.

Lemma OCR_pos limit v sv : 0 < sv -> (forall l, limit = Some l -> 0 < l) -> 0 < OCR_at limit v sv.
Proof.
  intros H Hl. unfold OCR_at. assert (X : 0 < 106/1000 * Rpower v (147/100) * 1000 / sv).
  { apply Rdiv_lt_0_compat; [|exact H]. pose proof (Rpower_pos v (147/100)). lra. }
  destruct limit as [l|]; [|exact X]. apply Rmin_glb_lt; auto.
Qed.

Lemma mean_stress_pos sv k : 0 < sv -> 0 < k -> 0 < mean_stress_at sv k.
Proof. intros. unfold mean_stress_at. apply Rmult_lt_0_compat; lra. Qed.

Lemma strength_pos phi v o sv k : 0 < phi < 90 -> 0 < sv -> 0 < k -> 0 < strength_at phi v o sv k.
Proof.
  intros Hp Hs Hk. unfold strength_at. destruct (Rleb v 760).
  - pose proof (Rpower_pos o (8/10)). apply Rmult_lt_0_compat; [|lra]. lra.
  - pose proof (sin_phi phi Hp). pose proof (tan_phi phi Hp).
    assert (0 < k * sv) by (apply Rmult_lt_0_compat; lra).
    assert (0 < Rmin sv (k * sv)) by (apply Rmin_glb_lt; lra).
    assert (Rmin sv (k * sv) <= Rmax sv (k * sv)) by (eapply Rle_trans; [apply Rmin_l|apply Rmax_l]).
    apply Rmult_lt_0_compat; [|lra]. set (s1 := Rmax sv (k * sv)) in *. set (s3 := Rmin sv (k * sv)) in *. set (sp := sin (deg2rad phi)) in *.
    replace ((s1 + s3) / 2 - (s1 - s3) / 2 * sp) with (s1 * ((1 - sp) / 2) + s3 * ((1 + sp) / 2)) by field.
    assert (0 < s1 * ((1 - sp) / 2)) by (apply Rmult_lt_0_compat; lra).
    assert (0 < s3 * ((1 + sp) / 2)) by (apply Rmult_lt_0_compat; lra). lra.
Qed.

Lemma mu_raw_pos G T o p : 0 < G -> 0 < T -> 0 < mu_raw G T o p.
Proof.
  intros HG HT. unfold mu_raw. pose proof (Rpower_pos o (47/100)). pose proof (Rpower_pos (p / 1000) (28/100)).
  assert (0 < G / T) by (apply Rdiv_lt_0_compat; auto).
  apply Rdiv_lt_0_compat; [lra|]. replace (872 / 1000000 * G / T) with (872/1000000 * (G / T)) by (unfold Rdiv; ring).
  set (q := G / T) in *. apply Rmult_lt_0_compat; [apply Rmult_lt_0_compat|]; lra.
Qed.
Lemma mu_adjust_ge m : 0 < m -> m <= mu_adjust m.
Proof.
  intros Hm. unfold mu_adjust.
  assert (X : forall e, 0 <= e -> m <= m * Rpower 10 e).
  { intros e He. assert (1 <= Rpower 10 e); [|nra]. rewrite <- (Rpower_O 10) by lra. apply Rle_Rpower; lra. }
  destruct (Rleb m (2/100)); [apply X; lra|]. destruct (Rleb m (3/100)); [apply X; lra|]. destruct (Rleb m (4/100)); [apply X; lra|lra].
Qed.

(** ** Darendeli *)
Lemma gamma_r_pos P o p : 0 <= P -> 0 < gamma_r_pct P o p.
Proof.
  intros HP. unfold gamma_r_pct. pose proof (Rpower_pos o (3246/10000)). apply Rmult_lt_0_compat; [|apply Rpower_pos]. nra.
Qed.
Lemma dar_GGmax_range gr g : 0 < dar_GGmax gr g < 1.
Proof.
  unfold dar_GGmax. pose proof (Rpower_pos (g / gr) phi5). split; [apply Rdiv_lt_0_compat; lra|].
  apply Rmult_lt_reg_r with (1 + Rpower (g / gr) phi5); [lra|]. field_simplify; lra.
Qed.
Lemma dar_GGmax_ratio gr g gr' g' : 0 < gr -> 0 < gr' -> 0 < g -> 0 < g' -> g / gr < g' / gr' -> dar_GGmax gr' g' < dar_GGmax gr g.
Proof.
  intros H1 H2 H3 H4 H5. unfold dar_GGmax. unfold Rdiv at 1 3. rewrite !Rmult_1_l.
  assert (0 < g / gr) by (apply Rdiv_lt_0_compat; auto).
  assert (Rpower (g / gr) phi5 < Rpower (g' / gr') phi5) by (apply Rlt_Rpower_l; unfold phi5; lra).
  pose proof (Rpower_pos (g / gr) phi5). apply Rinv_lt_contravar; [|lra]. apply Rmult_lt_0_compat; lra.
Qed.

Lemma ln_upper x : 0 < x -> ln (1 + x) < (x ^ 2 + 2 * x) / (2 * (1 + x)).
Proof.
  intros Hx.
  set (f := fun t => (t ^ 2 + 2 * t) / (2 * (1 + t)) - ln (1 + t)).
  set (f' := fun t => t ^ 2 / (2 * (1 + t) ^ 2)).
  destruct (MVT_cor2 f f' 0 x Hx) as (c & E & Hc).
  { intros t Ht. apply is_derive_Reals. unfold f, f'. auto_derive; [repeat split; lra|]. field. lra. }
  unfold f in E at 2. replace ((0 ^ 2 + 2 * 0) / (2 * (1 + 0)) - ln (1 + 0)) with 0 in E.
  2:{ rewrite Rplus_0_r, ln_1. field. }
  assert (0 < f' c * (x - 0)).
  { apply Rmult_lt_0_compat; [|lra]. unfold f'. apply Rdiv_lt_0_compat; [apply pow_lt; lra|]. pose proof (pow_lt (1 + c) 2). lra. }
  unfold f in E. lra.
Qed.
Lemma ln_lower x : 0 < x -> x < (1 + x) * ln (1 + x).
Proof.
  intros Hx. assert (H : ln (/ (1 + x)) < / (1 + x) - 1).
  { assert (Hp : 0 < / (1 + x)) by (apply Rinv_0_lt_compat; lra).
    assert (Hne : / (1 + x) - 1 <> 0).
    { assert (/ (1 + x) < 1); [|lra]. rewrite <- Rinv_1 at 2. apply Rinv_lt_contravar; lra. }
    pose proof (exp_ineq1 (/ (1 + x) - 1) Hne) as E. rewrite <- (exp_ln _ Hp) in E at 1.
    apply exp_lt_inv. replace (exp (ln (/ (1 + x)))) with (/ (1 + x)) by (symmetry; apply exp_ln; exact Hp). 
    rewrite exp_ln in E by exact Hp. lra. }
  rewrite ln_Rinv in H by lra.
  assert (1 - / (1 + x) < ln (1 + x)) by lra.
  apply (Rmult_lt_compat_l (1 + x)) in H0; [|lra]. replace ((1 + x) * (1 - / (1 + x))) with x in H0 by (field; lra). exact H0.
Qed.

(** The hyperbolic Masing damping is strictly between 0 and 200/pi percent. *)
Lemma dar_masing1_range gr g : 0 < gr -> 0 < g -> 0 < dar_masing1 gr g < 200 / PI.
Proof.
  intros Hr Hg. pose proof PI_RGT_0 as HP. set (x := g / gr). assert (Hx : 0 < x) by (apply Rdiv_lt_0_compat; auto).
  assert (Eg : g = gr * x) by (unfold x; field; lra).
  assert (E : dar_masing1 gr g = 100 / PI * (4 * (x - ln (1 + x)) * (1 + x) / x ^ 2 - 2)).
  { unfold dar_masing1. replace ((g + gr) / gr) with (1 + x) by (rewrite Eg; field; lra). rewrite Eg. assert (0 < gr * x) by (apply Rmult_lt_0_compat; auto). field. repeat split; lra. }
  rewrite E. pose proof (ln_upper x Hx) as U. pose proof (ln_lower x Hx) as L.
  assert (Hx2 : 0 < x ^ 2) by (apply pow_lt, Hx).
  assert (A : 2 * x ^ 2 < 4 * (x - ln (1 + x)) * (1 + x)).
  { apply (Rmult_lt_compat_r (2 * (1 + x))) in U; [|lra].
    replace ((x ^ 2 + 2 * x) / (2 * (1 + x)) * (2 * (1 + x))) with (x ^ 2 + 2 * x) in U by (field; lra). nra. }
  assert (B : 4 * (x - ln (1 + x)) * (1 + x) < 4 * x ^ 2) by nra.
  assert (A' : 2 < 4 * (x - ln (1 + x)) * (1 + x) / x ^ 2).
  { apply Rmult_lt_reg_r with (x ^ 2); [lra|]. replace (4 * (x - ln (1 + x)) * (1 + x) / x ^ 2 * x ^ 2) with (4 * (x - ln (1 + x)) * (1 + x)) by (field; lra). lra. }
  assert (B' : 4 * (x - ln (1 + x)) * (1 + x) / x ^ 2 < 4).
  { apply Rmult_lt_reg_r with (x ^ 2); [lra|]. replace (4 * (x - ln (1 + x)) * (1 + x) / x ^ 2 * x ^ 2) with (4 * (x - ln (1 + x)) * (1 + x)) by (field; lra). lra. }
  assert (0 < 100 / PI) by (apply Rdiv_lt_0_compat; lra). split.
  - apply Rmult_lt_0_compat; lra.
  - replace (200 / PI) with (100 / PI * 2) by (field; lra). apply Rmult_lt_compat_l; lra.
Qed.

Lemma dar_masing_pos gr g : 0 < gr -> 0 < g -> 0 < dar_masing gr g.
Proof.
  intros Hr Hg. destruct (dar_masing1_range gr g Hr Hg) as [Hm _]. unfold dar_masing. set (m := dar_masing1 gr g) in *.
  replace (dar_c1 * m + dar_c2 * m ^ 2 + dar_c3 * m ^ 3) with (m * (dar_c1 + dar_c2 * m + dar_c3 * m ^ 2)) by ring.
  apply Rmult_lt_0_compat; [exact Hm|]. unfold dar_c1, dar_c2, dar_c3, phi5. nra.
Qed.
Lemma dar_b_pos : 0 < dar_b.
Proof.
  unfold dar_b. assert (ln 10 < 10); [|lra]. apply exp_lt_inv. rewrite exp_ln by lra. pose proof (exp_ineq1 10 ltac:(lra)). lra.
Qed.
Lemma dar_Dmin_pos P o p : 0 <= P -> 0 < dar_Dmin P o p.
Proof.
  intros HP. unfold dar_Dmin. rewrite ln_1. pose proof (Rpower_pos o (- (1069/10000))). pose proof (Rpower_pos p (- (2889/10000))).
  apply Rmult_lt_0_compat; [|lra]. apply Rmult_lt_0_compat; [|lra]. nra.
Qed.

(** ** The search *)
Lemma any_finite_true l : any_finite l = true <-> exists v, In (Some v) l.
Proof.
  unfold any_finite. rewrite existsb_exists. split.
  - intros ([v|] & Hi & E); [eauto|discriminate].
  - intros (v & Hi). exists (Some v). auto.
Qed.

(** [ole a b]: a is not larger than b (None is infinity). *)
Definition ole (a b : option R) : Prop :=
  match a, b with _, None => True | None, Some _ => False | Some x, Some y => x <= y end.
Lemma ole_refl a : ole a a. Proof. destruct a; cbn; [lra|exact I]. Qed.
Lemma ole_trans a b c : ole a b -> ole b c -> ole a c.
Proof. destruct a, b, c; cbn; auto; try lra; try contradiction. Qed.
Lemma olt_true a b : olt a b = true -> ole a b.
Proof. destruct a, b; cbn; try discriminate; auto. intros H. apply Rltb_true in H. lra. Qed.
Lemma olt_false a b : olt a b = false -> ole b a.
Proof. destruct a, b; cbn; try discriminate; auto. intros H. apply Rltb_false in H. lra. Qed.

Lemma oargmin_from_spec l : forall best ibest i,
  let r := oargmin_from best ibest i l in
  ((r = ibest /\ Forall (ole best) l) \/
   (exists k, r = (i + k)%nat /\ (k < length l)%nat /\ ole (nth k l None) best /\ Forall (ole (nth k l None)) l)).
Proof.
  induction l as [|a l IH]; intros best ibest i; cbn [oargmin_from]; [left; auto|].
  destruct (olt a best) eqn:E.
  - right. destruct (IH a i (S i)) as [[Er Hf]|(k & Er & Hk & Ho & Hf)].
    + exists 0%nat. cbn. split; [lia|]. split; [lia|]. split; [apply olt_true, E|]. constructor; [apply ole_refl|exact Hf].
    + exists (S k). cbn. split; [lia|]. split; [lia|]. split; [eapply ole_trans; [exact Ho|apply olt_true, E]|]. constructor; auto.
  - destruct (IH best ibest (S i)) as [[Er Hf]|(k & Er & Hk & Ho & Hf)].
    + left. split; [exact Er|]. constructor; [apply olt_false, E|exact Hf].
    + right. exists (S k). cbn. split; [lia|]. split; [lia|]. split; [exact Ho|]. constructor; [|exact Hf].
      eapply ole_trans; [exact Ho|apply olt_false, E].
Qed.
Lemma oargmin_spec l : l <> [] -> (oargmin l < length l)%nat /\ Forall (ole (nth (oargmin l) l None)) l.
Proof.
  destruct l as [|a l]; [congruence|intros _]. cbn [oargmin].
  destruct (oargmin_from_spec l a 0 1) as [[Er Hf]|(k & Er & Hk & Ho & Hf)]; rewrite Er.
  - cbn. split; [lia|]. constructor; [apply ole_refl|exact Hf].
  - cbn. split; [lia|]. constructor; auto.
Qed.

Lemma linspace_range a b n k : (2 <= n)%nat -> (k < n)%nat -> a <= b -> a <= nth k (linspace a b n) 0 <= b.
Proof.
  intros Hn Hk Hab. rewrite linspace_nth' by lia.
  assert (H1 : 0 < INR (n - 1)) by (apply lt_0_INR; lia). assert (H2 : 0 <= INR k <= INR (n - 1)) by (split; [apply pos_INR|apply le_INR; lia]).
  assert (H3 : 0 <= (b - a) / INR (n - 1)) by (apply Rmult_le_pos; [lra|apply Rlt_le, Rinv_0_lt_compat, H1]).
  split; [nra|]. assert (INR k * ((b - a) / INR (n - 1)) <= INR (n - 1) * ((b - a) / INR (n - 1))) by (apply Rmult_le_compat_r; lra).
  replace (INR (n - 1) * ((b - a) / INR (n - 1))) with (b - a) in H by (field; lra). lra.
Qed.

(** What a successful pass returns. *)
Lemma search_spec n x TM G mu T LB UB gt d : (2 <= n)%nat -> search n x TM G mu T LB UB = Some (gt, d) ->
  In d (linspace (67/100) (139/100) n) /\ 67/100 <= d <= 139/100 /\ LB / 100 <= gt <= UB / 100 /\
  gt = nth (crossover TM (T_FKZ G mu d T x)) x 0 /\
  Forall (fun d' => ole (area_at x TM G mu T LB UB d) (area_at x TM G mu T LB UB d')) (linspace (67/100) (139/100) n).
Proof.
  intros Hn. unfold search. set (rd := linspace (67/100) (139/100) n). set (ar := map (area_at x TM G mu T LB UB) rd).
  assert (Lrd : length rd = n) by apply linspace_length.
  destruct (any_finite ar) eqn:Ea; [|discriminate]. intros E. unfold find_x_t_and_d in E. injection E as Egt Ed.
  assert (Hne : ar <> []) by (unfold ar; intros H; apply map_eq_nil in H; rewrite H in Lrd; cbn in Lrd; lia).
  destruct (oargmin_spec ar Hne) as [Hi Hf]. assert (La : length ar = n) by (unfold ar; rewrite map_length; exact Lrd).
  assert (En : nth (oargmin ar) ar None = area_at x TM G mu T LB UB d).
  { unfold ar at 2. rewrite (nth_indep _ None (area_at x TM G mu T LB UB 0)) by (rewrite map_length; lia).
    rewrite map_nth. rewrite Ed. reflexivity. }
  rewrite En in Hf.
  assert (Hfin : exists v, area_at x TM G mu T LB UB d = Some v).
  { apply any_finite_true in Ea as (v & Hv). apply (proj1 (Forall_forall _ _) Hf) in Hv. destruct (area_at x TM G mu T LB UB d); [eauto|contradiction]. }
  split; [rewrite <- Ed; apply nth_In; lia|].
  split; [rewrite <- Ed; apply linspace_range; [lia|lia|lra]|].
  rewrite Ed in Egt. split.
  - destruct Hfin as (v & Hv). unfold area_at in Hv. destruct (Rleb (LB / 100) _ && _) eqn:Eb; [|discriminate].
    apply andb_true_iff in Eb as [B1 B2]. apply Rleb_true in B1, B2. rewrite <- Egt. lra.
  - split; [congruence|]. unfold ar in Hf. rewrite Forall_map in Hf. exact Hf.
Qed.

Lemma lower_bound_cases x TM T mu : let b := lower_bound x TM T mu in b = 1/1000 \/ b = 5/1000 \/ b = 1/100.
Proof.
  unfold lower_bound. destruct (Rleb mu _); repeat match goal with |- context [if ?b then _ else _] => destruct b end; auto.
Qed.
