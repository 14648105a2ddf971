(** Lemmas for M_soil. *)
From Coq Require Import Reals List Bool ZArith Lia Lra.
From Verif Require Import Base M_soil.
Import ListNotations.
Open Scope R_scope.

(** Power of a non-negative base with a positive exponent. *)
Definition pw (x d : R) : R := if Reqb x 0 then 0 else Rpower x d.

Lemma Rpower_pos x d : 0 < Rpower x d. Proof. apply exp_pos. Qed.
Lemma pw_0 d : pw 0 d = 0. Proof. unfold pw. rewrite (proj2 (Reqb_true 0 0) eq_refl). reflexivity. Qed.
Lemma pw_pos x d : x <> 0 -> pw x d = Rpower x d.
Proof. intros H. unfold pw. rewrite (proj2 (Reqb_false x 0) H). reflexivity. Qed.
Lemma pw_nonneg x d : 0 <= pw x d.
Proof. unfold pw. destruct (Reqb x 0); [lra|]. apply Rlt_le, Rpower_pos. Qed.
Lemma pw_gt0 x d : 0 < x -> 0 < pw x d.
Proof. intros H. rewrite pw_pos by lra. apply Rpower_pos. Qed.
Lemma pw_lt x y d : 0 <= x < y -> 0 < d -> pw x d < pw y d.
Proof.
  intros H Hd. destruct (Req_dec x 0) as [->|Hx].
  - rewrite pw_0. apply pw_gt0. lra.
  - rewrite !pw_pos by lra. apply Rlt_Rpower_l; lra.
Qed.
Lemma pw_le x y d : 0 <= x <= y -> 0 < d -> pw x d <= pw y d.
Proof.
  intros H Hd. destruct (Req_dec x y) as [->|Hx]; [lra|]. apply Rlt_le, pw_lt; lra.
Qed.
Lemma npow_nonneg x d : 0 <= x -> 0 < d -> npow x d = Fin (pw x d).
Proof.
  intros Hx Hd. unfold npow, pw. destruct (Rltb_spec 0 x).
  - rewrite (proj2 (Reqb_false x 0)) by lra. reflexivity.
  - assert (x = 0) by lra. subst x. rewrite (proj2 (Reqb_true 0 0) eq_refl), (proj2 (Rltb_true 0 d)) by lra. reflexivity.
Qed.

Lemma npow_neg_nan x d : x < 0 -> d <> IZR (Int_part d) -> npow x d = NaN.
Proof.
  intros Hx Hd. unfold npow. rewrite (proj2 (Rltb_false 0 x)), (proj2 (Reqb_false x 0)) by lra.
  rewrite (proj2 (Reqb_false d _)) by auto. reflexivity.
Qed.

(** A power with exponent at most 1 grows no faster than its base. *)
Lemma pw_sublinear x y s : 0 < x <= y -> 0 < s <= 1 -> x * pw y s <= y * pw x s.
Proof.
  intros Hxy Hs. rewrite !pw_pos by lra.
  assert (E : Rpower y s = Rpower (y / x) s * Rpower x s).
  { rewrite Rpower_mult_distr; [f_equal; field; lra|apply Rdiv_lt_0_compat; lra|lra]. }
  rewrite E. assert (H1 : 1 <= y / x).
  { apply Rmult_le_reg_r with x; [lra|]. unfold Rdiv. rewrite Rmult_assoc, Rinv_l; lra. }
  assert (H2 : Rpower (y / x) s <= y / x).
  { rewrite <- (Rpower_1 (y / x)) at 2 by lra. apply Rle_Rpower; lra. }
  replace (y * Rpower x s) with (x * (y / x * Rpower x s)) by (field; lra).
  apply Rmult_le_compat_l; [lra|]. apply Rmult_le_compat_r; [apply Rlt_le, Rpower_pos|exact H2].
Qed.

Lemma pw_root x s : 0 < x -> 0 < s -> pw (Rpower x (/ s)) s = x.
Proof.
  intros Hx Hs. rewrite pw_pos by (pose proof (Rpower_pos x (/ s)); lra).
  rewrite Rpower_mult, Rinv_l by lra. apply Rpower_1. exact Hx.
Qed.

(** ** MKZ *)
Definition mkz_val (gr beta s G g : R) : R := G * g / (1 + beta * pw (Rabs g / gr) s).

Lemma mkz_den gr beta s g : 0 < gr -> 0 <= beta -> 0 < 1 + beta * pw (Rabs g / gr) s.
Proof. intros. pose proof (pw_nonneg (Rabs g / gr) s). nra. Qed.

Lemma abs_ratio_nonneg g gr : 0 < gr -> 0 <= Rabs g / gr.
Proof. intros. apply Rmult_le_pos; [apply Rabs_pos|]. apply Rlt_le, Rinv_0_lt_compat. auto. Qed.

Lemma tau_MKZ_val gr beta s G g : 0 < gr -> 0 <= beta -> 0 < s -> tau_MKZ gr beta s G g = Fin (mkz_val gr beta s G g).
Proof.
  intros Hgr Hb Hs. unfold tau_MKZ. rewrite (proj2 (Reqb_false gr 0)) by lra.
  rewrite npow_nonneg by (auto using abs_ratio_nonneg). unfold ndiv.
  pose proof (mkz_den gr beta s g Hgr Hb). rewrite (proj2 (Reqb_false _ 0)) by lra. reflexivity.
Qed.

Lemma mkz_ratio gr beta s G g : 0 < gr -> 0 <= beta -> 0 < G -> g <> 0 ->
  mkz_val gr beta s G g / (G * g) = / (1 + beta * pw (Rabs g / gr) s).
Proof.
  intros Hgr Hb HG Hg. unfold mkz_val. pose proof (mkz_den gr beta s g Hgr Hb). field. lra.
Qed.

Lemma ratio_le g1 g2 gr : 0 < gr -> Rabs g1 <= Rabs g2 -> Rabs g1 / gr <= Rabs g2 / gr.
Proof. intros. apply Rmult_le_compat_r; [apply Rlt_le, Rinv_0_lt_compat; auto|auto]. Qed.
Lemma ratio_lt g1 g2 gr : 0 < gr -> Rabs g1 < Rabs g2 -> Rabs g1 / gr < Rabs g2 / gr.
Proof. intros. apply Rmult_lt_compat_r; [apply Rinv_0_lt_compat; auto|auto]. Qed.

(** ** FKZ *)
Definition fkz_val (G mu d T g : R) : R := mu * G * pw g d / (1 + G / T * mu * pw g d).

Lemma fkz_den G mu d T g : 0 < G -> 0 < mu -> 0 < T -> 0 < 1 + G / T * mu * pw g d.
Proof.
  intros. pose proof (pw_nonneg g d). assert (0 < G / T * mu).
  { apply Rmult_lt_0_compat; [apply Rdiv_lt_0_compat; auto|auto]. } nra.
Qed.

Lemma tau_FKZ_val G mu d T g : 0 < G -> 0 < mu -> 0 < T -> 0 < d -> 0 <= g -> tau_FKZ G mu d T g = Fin (fkz_val G mu d T g).
Proof.
  intros HG Hm HT Hd Hg. unfold tau_FKZ. rewrite (Rabs_pos_eq g) by auto. rewrite !npow_nonneg by auto.
  unfold ndiv. pose proof (fkz_den G mu d T g HG Hm HT). rewrite (proj2 (Reqb_false _ 0)) by lra. reflexivity.
Qed.

Lemma fkz_below G mu d T g : 0 < G -> 0 < mu -> 0 < T -> fkz_val G mu d T g = T - T / (1 + G / T * mu * pw g d).
Proof.
  intros HG Hm HT. unfold fkz_val. pose proof (fkz_den G mu d T g HG Hm HT) as Hden.
  assert (0 < T + G * mu * pw g d).
  { replace (T + G * mu * pw g d) with (T * (1 + G / T * mu * pw g d)) by (field; lra). apply Rmult_lt_0_compat; auto. }
  field. lra.
Qed.

(** ** Transition *)
Definition tr_exp (a gt g : R) : R := - a * (log10 (Rabs g / gt) - 4039/1000 * Rpower a (- (1036/1000))).

Lemma transition_nz a gt g : g <> 0 -> transition a gt g =
  if Rltb 305 (tr_exp a gt g) then 1 else if Rltb (tr_exp a gt g) (-305) then 0 else 1 - 1 / (1 + Rpower 10 (tr_exp a gt g)).
Proof. intros H. unfold transition. rewrite (proj2 (Reqb_false g 0) H). reflexivity. Qed.

Lemma logistic_bounds e : 0 < 1 - 1 / (1 + Rpower 10 e) < 1.
Proof.
  pose proof (Rpower_pos 10 e) as H. assert (0 < 1 / (1 + Rpower 10 e)) by (apply Rdiv_lt_0_compat; lra).
  split; [|lra]. replace (1 - 1 / (1 + Rpower 10 e)) with (Rpower 10 e / (1 + Rpower 10 e)) by (field; lra).
  apply Rdiv_lt_0_compat; lra.
Qed.

Lemma transition_bounds a gt g : 0 <= transition a gt g <= 1.
Proof.
  destruct (Req_dec g 0) as [->|Hg].
  - unfold transition. rewrite (proj2 (Reqb_true 0 0) eq_refl). lra.
  - rewrite transition_nz by auto. pose proof (logistic_bounds (tr_exp a gt g)).
    destruct (Rltb _ _); [lra|]. destruct (Rltb _ _); lra.
Qed.

Lemma logistic_mono e1 e2 : e1 <= e2 -> 1 - 1 / (1 + Rpower 10 e1) <= 1 - 1 / (1 + Rpower 10 e2).
Proof.
  intros H. assert (Hp : Rpower 10 e1 <= Rpower 10 e2) by (apply Rle_Rpower; lra).
  pose proof (Rpower_pos 10 e1). assert (1 / (1 + Rpower 10 e2) <= 1 / (1 + Rpower 10 e1)); [|lra].
  unfold Rdiv. apply Rmult_le_compat_l; [lra|]. apply Rinv_le_contravar; lra.
Qed.

Lemma ln10_pos : 0 < ln 10. Proof. rewrite <- ln_1. apply ln_increasing; lra. Qed.

Lemma tr_exp_decr a gt g1 g2 : 0 < a -> 0 < gt -> 0 < Rabs g1 <= Rabs g2 -> tr_exp a gt g2 <= tr_exp a gt g1.
Proof.
  intros Ha Hgt [H0 H]. unfold tr_exp.
  assert (Hl : log10 (Rabs g1 / gt) <= log10 (Rabs g2 / gt)).
  { unfold log10. apply Rmult_le_compat_r; [apply Rlt_le, Rinv_0_lt_compat, ln10_pos|].
    destruct (Req_dec (Rabs g1) (Rabs g2)) as [->|Hne]; [lra|]. apply Rlt_le, ln_increasing.
    - apply Rdiv_lt_0_compat; lra.
    - apply ratio_lt; lra. }
  nra.
Qed.

Lemma transition_decr a gt g1 g2 : 0 < a -> 0 < gt -> Rabs g1 <= Rabs g2 -> transition a gt g2 <= transition a gt g1.
Proof.
  intros Ha Hgt H. destruct (Req_dec g1 0) as [->|H1].
  - unfold transition at 2. rewrite (proj2 (Reqb_true 0 0) eq_refl). apply transition_bounds.
  - assert (H1' : 0 < Rabs g1) by (apply Rabs_pos_lt; auto).
    assert (H2 : g2 <> 0) by (intros ->; rewrite Rabs_R0 in H; lra).
    rewrite !transition_nz by auto. pose proof (tr_exp_decr a gt g1 g2 Ha Hgt (conj H1' H)) as He.
    set (e1 := tr_exp a gt g1) in *. set (e2 := tr_exp a gt g2) in *.
    pose proof (logistic_bounds e1). pose proof (logistic_bounds e2). pose proof (logistic_mono e2 e1 He).
    destruct (Rltb_spec 305 e2), (Rltb_spec 305 e1); try lra.
    all: destruct (Rltb_spec e2 (-305)), (Rltb_spec e1 (-305)); lra.
Qed.

(** ** Damping *)

(** Area under the stress-strain polygon from the point (pe, pt) to point [k]. *)
Fixpoint area_to (pe pt : R) (es : list (R * R)) (k : nat) : R :=
  match es with
  | [] => 0
  | (e, t) :: rest => (pt + t) / 2 * (e - pe) + match k with 0%nat => 0 | S k' => area_to e t rest k' end
  end.

Lemma damping_scan_spec G es : G <> 0 -> Forall (fun et => fst et <> 0 /\ snd et <> 0) es ->
  forall pe pt acc k, pe <> 0 -> (k < length es)%nat ->
  nth k (damping_scan (acc / G) pe (pt / pe / G) (map (fun et => (fst et, snd et / fst et / G)) es)) 0 =
  2 / PI * (2 * (acc + area_to pe pt es k) / (fst (nth k es (0, 0)) * snd (nth k es (0, 0))) - 1).
Proof.
  intros HG HF. induction HF as [|[e t] es [He Ht] HF IH]; intros pe pt acc k Hpe Hk; [cbn in Hk; lia|].
  cbn [fst snd] in He, Ht. pose proof PI_neq0 as HPI. cbn [map damping_scan fst snd].
  set (acc' := acc + (pt + t) / 2 * (e - pe)).
  assert (Ea : acc / G + 5 / 10 * (pe * (pt / pe / G) + e * (t / e / G)) * (e - pe) = acc' / G)
    by (unfold acc'; field; auto).
  rewrite Ea. destruct k as [|k].
  - cbn [nth fst snd area_to]. fold acc'. unfold acc'. field. auto.
  - cbn [nth]. rewrite IH by (auto; cbn in Hk; lia). cbn [area_to]. unfold acc'. f_equal. f_equal. f_equal. f_equal. lra.
Qed.

Lemma combine_map_gg strain stress G : length strain = length stress ->
  combine strain (map (fun te => fst te / snd te / G) (combine stress strain)) =
  map (fun et => (fst et, snd et / fst et / G)) (combine strain stress).
Proof.
  revert stress; induction strain as [|e l IH]; intros [|t m] H; cbn in *; try discriminate; f_equal. apply IH. lia.
Qed.

Lemma nth_combine0 (l m : list R) k : length l = length m -> nth k (combine l m) (0, 0) = (nth k l 0, nth k m 0).
Proof. intros. apply combine_nth; auto. Qed.

Lemma Forall_combine (P Q : R -> Prop) l m : Forall P l -> Forall Q m ->
  Forall (fun et => P (fst et) /\ Q (snd et)) (combine l m).
Proof.
  intros HP. revert m; induction HP as [|x l Hx HP IH]; intros m HQ; cbn; [constructor|].
  destruct HQ as [|y m Hy HQ]; constructor; auto.
Qed.

Lemma nth_map_fin (f : R -> R) l k : (k < length l)%nat -> nth k (map f l) 0 = f (nth k l 0).
Proof. intros H. rewrite (nth_indep _ 0 (f 0)) by (rewrite map_length; auto). apply map_nth. Qed.

(** Closed form of the damping curve. *)
Lemma calc_damping_spec strain stress G : length strain = length stress -> strain <> [] -> G <> 0 ->
  Forall (fun e => e <> 0) strain -> Forall (fun t => t <> 0) stress ->
  exists ds, calc_damping strain stress G = Ok ds /\ length ds = length strain /\
    forall k, (k < length strain)%nat ->
      nth k ds 0 = Rmax (2 / PI * (2 * area_to 0 0 (combine strain stress) k / (nth k strain 0 * nth k stress 0) - 1)) 0.
Proof.
  intros HL Hne HG He Ht. unfold calc_damping, calc_GGmax. destruct strain as [|e0 es]; [congruence|].
  destruct stress as [|t0 ts]; [discriminate|].
  pose proof (Forall_inv He) as He0. pose proof (Forall_inv Ht) as Ht0. cbn in He0, Ht0.
  unfold get. cbn [nth_error bind]. rewrite (proj2 (Reqb_false e0 0) He0). cbn [negb].
  rewrite HL, Nat.eqb_refl. cbn [bind]. rewrite combine_map_gg by auto.
  cbn [combine map fst snd].
  eexists. split; [reflexivity|]. pose proof PI_neq0 as HPI.
  assert (Lsc : forall a pe pg eg, length (damping_scan a pe pg eg) = length eg).
  { intros a pe pg eg. revert a pe pg; induction eg as [|[? ?] eg IH]; intros; cbn; auto. }
  split.
  { cbn [length]. rewrite map_length. rewrite Lsc, map_length, combine_length. cbn in HL. lia. }
  intros [|k] Hk.
  - cbn [nth area_to]. f_equal. field. auto.
  - cbn [nth]. rewrite nth_map_fin.
    2:{ rewrite Lsc, map_length, combine_length. cbn in HL, Hk. lia. }
    f_equal.
    replace (5 / 10 * (e0 * (t0 / e0 / G)) * e0) with (e0 * t0 / 2 / G) by (field; auto).
    rewrite damping_scan_spec; auto.
    + rewrite nth_combine0 by (cbn in HL; lia). cbn [fst snd area_to]. do 4 f_equal. lra.
    + apply (Forall_combine (fun e => e <> 0) (fun t => t <> 0)); [inversion He|inversion Ht]; auto.
    + rewrite combine_length. cbn in HL, Hk. lia.
Qed.

(** Bounds on the area. *)
Lemma area_upper es : forall pe pt k, (k < length es)%nat -> 0 <= pe -> 0 <= pt ->
  (forall i, (i < length es)%nat -> (if Nat.eqb i 0 then pe else fst (nth (i - 1) es (0, 0))) <= fst (nth i es (0, 0)) /\
     (if Nat.eqb i 0 then pt else snd (nth (i - 1) es (0, 0))) <= snd (nth i es (0, 0))) ->
  area_to pe pt es k <= fst (nth k es (0, 0)) * snd (nth k es (0, 0)) - pe * snd (nth k es (0,0)) /\ pt <= snd (nth k es (0, 0)).
Proof.
  induction es as [|[e t] es IH]; intros pe pt k Hk Hpe Hpt H; [cbn in Hk; lia|].
  pose proof (H 0%nat ltac:(cbn; lia)) as [H1 H2]. cbn in H1, H2.
  destruct k as [|k].
  - cbn. nra.
  - cbn [area_to nth]. destruct (IH e t k) as [I1 I2].
    + cbn in Hk; lia.
    + lra.
    + lra.
    + intros i Hi. specialize (H (S i) ltac:(cbn; lia)). cbn [Nat.eqb] in H. replace (S i - 1)%nat with i in H by lia.
      destruct i as [|i]; [exact H|]. cbn [Nat.eqb]. replace (S i - 1)%nat with i by lia. exact H.
    + split; [|lra]. set (T := snd (nth k es (0, 0))) in *.
      assert ((pt + t) / 2 * (e - pe) <= T * (e - pe)) by (apply Rmult_le_compat_r; lra). lra.
Qed.

Lemma area_lower es : forall pe pt k acc, (k < length es)%nat -> 0 <= pe ->
  pe * pt / 2 <= acc ->
  (forall i, (i < length es)%nat ->
     (if Nat.eqb i 0 then pe else fst (nth (i - 1) es (0, 0))) * snd (nth i es (0, 0)) <=
     fst (nth i es (0, 0)) * (if Nat.eqb i 0 then pt else snd (nth (i - 1) es (0, 0)))) ->
  (forall i, (i < length es)%nat -> 0 < fst (nth i es (0, 0))) ->
  fst (nth k es (0, 0)) * snd (nth k es (0, 0)) / 2 <= acc + area_to pe pt es k.
Proof.
  induction es as [|[e t] es IH]; intros pe pt k acc Hk Hpe Ha H Hp; [cbn in Hk; lia|].
  pose proof (H 0%nat ltac:(cbn; lia)) as H1. cbn in H1. pose proof (Hp 0%nat ltac:(cbn; lia)) as H0. cbn in H0.
  assert (Hstep : e * t / 2 <= acc + (pt + t) / 2 * (e - pe)) by nra.
  destruct k as [|k].
  - cbn. lra.
  - cbn [area_to nth]. pose proof (IH e t k (acc + (pt + t) / 2 * (e - pe))) as X.
    rewrite <- Rplus_assoc. apply X; auto.
    + cbn in Hk; lia.
    + lra.
    + intros i Hi. specialize (H (S i) ltac:(cbn; lia)). cbn [Nat.eqb] in H. replace (S i - 1)%nat with i in H by lia.
      destruct i as [|i]; [exact H|]. cbn [Nat.eqb]. replace (S i - 1)%nat with i by lia. exact H.
    + intros i Hi. apply (Hp (S i)). cbn; lia.
Qed.
