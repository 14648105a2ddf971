(** Theorems about goodness-of-fit scores (C50, C51, C52, C76, C77, C78). *)
From Coq Require Import Reals List Bool ZArith Lia Lra.
From Verif Require Import Base M_generic P_generic M_motion P_motion M_gof P_gof.
Import ListNotations.
Open Scope R_scope.

(** ** C50 the score of two numbers *)

Theorem C50_score_of_two_numbers : forall erf m s, erf_like erf ->
  (S_float erf m s = 0 <-> Rmax m eps64 = Rmax s eps64) /\
  (0 < S_float erf m s <-> Rmax m eps64 < Rmax s eps64) /\
  (S_float erf m s < 0 <-> Rmax s eps64 < Rmax m eps64) /\
  - 10 * erf 1 < S_float erf m s < 10 /\
  (forall s', s <= s' -> S_float erf m s <= S_float erf m s') /\
  (forall s', s < s' -> eps64 < s' -> S_float erf m s < S_float erf m s').
Proof.
  intros erf m s (E0 & Einc & Eodd & Elt). unfold S_float. pose proof eps64_pos as He.
  assert (Hm : 0 < Rmax m eps64) by (pose proof (Rmax_r m eps64); lra).
  assert (Hp : forall x, 0 < Rmax x eps64) by (intros x; pose proof (Rmax_r x eps64); lra).
  destruct (rela_diff_spec (Rmax m eps64) (Rmax s eps64) Hm (Hp s)) as (R0 & Rp & R1 & Rm).
  set (d := rela_diff (Rmax m eps64) (Rmax s eps64)) in *.
  assert (S0 : erf d * 10 = 0 <-> d = 0).
  { split; intros H; [|rewrite H, E0; lra]. destruct (Rtotal_order d 0) as [L|[L|L]]; [|exact L|]; exfalso.
    - pose proof (Einc _ _ L). lra.
    - pose proof (Einc _ _ L). lra. }
  assert (Sp : 0 < erf d * 10 <-> 0 < d).
  { split; intros H; [|pose proof (Einc _ _ H); lra]. destruct (Rtotal_order d 0) as [L|[L|L]]; [|rewrite L, E0 in H; lra|exact L].
    pose proof (Einc _ _ L). lra. }
  split; [rewrite S0; exact R0|]. split; [rewrite Sp; exact Rp|]. split; [|split; [|split]].
  - split; intros H.
    + destruct (Rtotal_order (Rmax s eps64) (Rmax m eps64)) as [L|[L|L]]; [exact L| |]; exfalso.
      * symmetry in L. apply R0, S0 in L. lra.
      * apply Rp, Sp in L. lra.
    + destruct (Rtotal_order (erf d * 10) 0) as [L|[L|L]]; [exact L| |]; exfalso.
      * apply S0, R0 in L. lra.
      * apply Sp, Rp in L. lra.
  - pose proof (Einc _ _ R1) as H. replace (-1) with (- (1)) in H by lra. rewrite Eodd in H. pose proof (Elt d). lra.
  - intros s' H. destruct (Rle_lt_or_eq_dec (Rmax s eps64) (Rmax s' eps64)) as [L|L].
    + unfold Rmax. destruct (Rle_dec s eps64), (Rle_dec s' eps64); lra.
    + specialize (Rm _ L). pose proof (Einc _ _ Rm). lra.
    + rewrite <- L. fold d. lra.
  - intros s' H H'. assert (L : Rmax s eps64 < Rmax s' eps64) by (unfold Rmax; destruct (Rle_dec s eps64), (Rle_dec s' eps64); lra).
    specialize (Rm _ L). pose proof (Einc _ _ Rm). lra.
Qed.

(** Above the floor the score depends on the ratio only. *)
Theorem C50_score_of_ratio : forall erf m s, eps2 <= m -> eps64 <= s -> S_float erf m s = erf (s / m - 1) * 10.
Proof.
  intros erf m s Hm Hs. pose proof eps64_lt_eps2. pose proof eps64_pos. unfold S_float. rewrite !Rmax_left by lra. unfold rela_diff.
  rewrite (proj2 (Rltb_false m eps2)) by lra. do 2 f_equal. field. lra.
Qed.

(** Scoring arrays floors the caller's arrays in place; the scores are those of
    the single numbers, and scoring again changes nothing. *)
Theorem C50_arrays : forall erf m s, length m = length s ->
  exists l, S_array erf (map Fin m) (map Fin s) =
      (map (fun x => Fin (Rmax x eps64)) m, map (fun x => Fin (Rmax x eps64)) s, Ok (map Fin l)) /\ length l = length m /\
    (forall k, (k < length m)%nat -> nth k l 0 = S_float erf (nth k m 0) (nth k s 0)) /\
    S_array erf (map (fun x => Fin (Rmax x eps64)) m) (map (fun x => Fin (Rmax x eps64)) s) =
      (map (fun x => Fin (Rmax x eps64)) m, map (fun x => Fin (Rmax x eps64)) s, Ok (map Fin l)).
Proof.
  intros erf m s HL.
  assert (Hf : forall x, floor_eps (Fin x) = Fin (Rmax x eps64)).
  { intros x. unfold floor_eps. cbn [nltb]. unfold Rmax. destruct (Rltb_spec x eps64), (Rle_dec x eps64); f_equal; lra. }
  assert (Hff : forall x, floor_eps (Fin (Rmax x eps64)) = Fin (Rmax x eps64)).
  { intros x. rewrite Hf. f_equal. unfold Rmax at 1. pose proof (Rmax_r x eps64). destruct (Rle_dec (Rmax x eps64) eps64); lra. }
  exists (map (fun p => S_float erf (fst p) (snd p)) (combine m s)).
  assert (E : map (fun p => S_el erf (fst p) (snd p)) (combine (map (fun x => Fin (Rmax x eps64)) m) (map (fun x => Fin (Rmax x eps64)) s)) =
              map Fin (map (fun p => S_float erf (fst p) (snd p)) (combine m s))).
  { clear. revert s. induction m as [|x m IH]; intros [|y s]; cbn [map combine]; try reflexivity. rewrite IH. reflexivity. }
  set (l := map (fun p => S_float erf (fst p) (snd p)) (combine m s)) in *.
  assert (Hl : length l = length m) by (unfold l; rewrite map_length, combine_length, <- HL; apply Nat.min_id).
  unfold S_array. rewrite (map_map Fin floor_eps m), (map_map Fin floor_eps s), !map_length, HL, Nat.eqb_refl.
  rewrite (map_map (fun x => Fin (Rmax x eps64)) floor_eps m), (map_map (fun x => Fin (Rmax x eps64)) floor_eps s).
  rewrite (map_ext (fun x => floor_eps (Fin x)) (fun x => Fin (Rmax x eps64))) by exact Hf.
  rewrite (map_ext (fun x => floor_eps (Fin x)) (fun x => Fin (Rmax x eps64))) by exact Hf.
  rewrite (map_ext (fun x => floor_eps (Fin (Rmax x eps64))) (fun x => Fin (Rmax x eps64))) by exact Hff.
  rewrite (map_ext (fun x => floor_eps (Fin (Rmax x eps64))) (fun x => Fin (Rmax x eps64))) by exact Hff.
  rewrite E. split; [reflexivity|]. split; [rewrite <- HL; exact Hl|]. split; [|reflexivity].
  intros k Hk. unfold l. rewrite (nth_map_d _ (0, 0)) by (rewrite combine_length; lia). rewrite combine_nth by exact HL. reflexivity.
Qed.

(** An integer measurement is not accepted (finding); lengths must agree. *)
Theorem C50_argument_types : forall erf z s, S_ erf (SInt z) s = Err TypeError.
Proof. reflexivity. Qed.
Theorem C50_length_mismatch : forall erf m s, length m <> length s -> S_ erf (SArr m) (SArr s) = Err ValueError.
Proof. intros erf m s H. cbn [S_]. unfold S_array. cbn [snd]. rewrite (proj2 (Nat.eqb_neq _ _) H). reflexivity. Qed.

(** ** every score of the first nine is NaN or within (-10, 10) *)
Definition score_ok (x : num) : Prop := match x with Fin r => -10 < r < 10 | NaN => True | _ => False end.

Lemma erf_like_lower erf x : erf_like erf -> -1 < erf x.
Proof. intros (_ & _ & Eodd & Elt). pose proof (Elt (- x)) as H. rewrite Eodd in H. lra. Qed.

Lemma S_float_ok erf m s : erf_like erf -> score_ok (Fin (S_float erf m s)).
Proof.
  intros H. pose proof (erf_like_lower erf (rela_diff (Rmax m eps64) (Rmax s eps64)) H). destruct H as (_ & _ & _ & Elt).
  pose proof (Elt (rela_diff (Rmax m eps64) (Rmax s eps64))). unfold score_ok, S_float. lra.
Qed.

Lemma S_array_ok erf m s l : erf_like erf -> snd (S_array erf m s) = Ok l -> Forall score_ok l.
Proof.
  intros H. unfold S_array. cbn [snd]. destruct (Nat.eqb _ _); [|discriminate]. intros [= <-]. apply Forall_map, Forall_forall. intros [x y] _. cbn [fst snd].
  destruct x, y; cbn; auto. pose proof (erf_like_lower erf (rela_diff r r0) H). destruct H as (_ & _ & _ & Elt). pose proof (Elt (rela_diff r r0)). lra.
Qed.

Lemma nsum_strict l : forall y, nsum l = Fin y -> Forall score_ok l -> l <> [] -> INR (length l) * -10 < y < INR (length l) * 10.
Proof.
  induction l as [|x l IH]; intros y E H Hne; [congruence|]. cbn [nsum] in E. inversion H as [|? ? Hx Hl]; subst.
  destruct x as [r| | |]; try discriminate. destruct (nsum l) as [z| | |] eqn:Ez; try discriminate. injection E as <-. cbn in Hx.
  change (length (Fin r :: l)) with (S (length l)). rewrite S_INR. destruct l as [|x' l'].
  - cbn in Ez. injection Ez as <-. cbn. lra.
  - specialize (IH z eq_refl Hl ltac:(discriminate)). lra.
Qed.
Lemma nmean_ok l : Forall score_ok l -> score_ok (nmean l).
Proof.
  intros H. unfold nmean. destruct l as [|x l]; [exact I|]. set (L := x :: l) in *. destruct (nsum L) as [y| | |] eqn:E; cbn; auto.
  pose proof (nsum_strict L y E H ltac:(discriminate)) as [A B]. assert (HN : 0 < INR (length L)) by (apply lt_0_INR; cbn; lia).
  split; apply Rmult_lt_reg_r with (INR (length L)); try exact HN; unfold Rdiv; rewrite ?Rmult_assoc, Rinv_l, Rmult_1_r by lra; lra.
Qed.

Ltac unbind H := repeat match type of H with
  | bind ?x _ = Ok _ => let E := fresh "E" in destruct x eqn:E; [cbn [bind] in H|discriminate H]
  | (if ?b then _ else _) = Ok _ => let E := fresh "E" in destruct b eqn:E; [|discriminate H]
  end.

Theorem C50_scores_in_range : forall erf bl hp bp wav resp four m s fmin fmax b, erf_like erf ->
  (forall l, d_1234 erf bl hp bp m s fmin fmax b = Ok l -> length l = 4%nat /\ Forall score_ok l) /\
  (forall l, d_567 erf bl hp bp wav m s fmin fmax b = Ok l -> length l = 3%nat /\ Forall score_ok l) /\
  (forall l, d_89 erf bl resp four m s (Some fmin) fmax b = Ok l -> length l = 2%nat /\ Forall score_ok l).
Proof.
  intros erf bl hp bp wav resp four m s fmin fmax b He. split; [|split]; intros l H.
  - unfold d_1234 in H. unbind H. injection H as <-. split; [reflexivity|].
    repeat constructor; try (apply S_float_ok, He); apply nmean_ok; eapply S_array_ok; eauto.
  - unfold d_567 in H. unbind H. injection H as <-. split; [reflexivity|]. repeat constructor; apply (S_float_ok erf _ _ He).
  - unfold d_89 in H. unbind H. injection H as <-. split; [reflexivity|]. repeat constructor; apply nmean_ok; eapply S_array_ok; eauto.
Qed.

(** Without baseline correction the frequency limits of the RMS scores have no
    effect at all (finding). *)
Theorem C50_rms_limits_ignored : forall erf bl hp bp wav m s f1 f2 F1 F2,
  d_567 erf bl hp bp wav m s f1 F1 false = d_567 erf bl hp bp wav m s f2 F2 false.
Proof. reflexivity. Qed.

(** Records of different lengths cannot be scored (finding: the resampling branch
    is never usable). *)
Theorem C50_different_lengths_raise : forall erf bl hp bp m s fmin fmax b l,
  (forall f x y, hp f x = Ok y -> length y = length x) -> (forall f g x y, bp f g x = Ok y -> length y = length x) ->
  (forall x y, bl x = Ok y -> length y = length x) ->
  d_1234 erf bl hp bp m s fmin fmax b = Ok l -> length (trim m) = length (trim s).
Proof.
  intros erf bl hp bp m s fmin fmax b l Hh Hb Hl H. unfold d_1234 in H. unbind H. clear H.
  assert (F : forall x y, filt hp bp fmin fmax x = Ok y -> length y = length x) by (intros x y E'; unfold filt in E'; destruct fmax; eauto).
  assert (B : forall x y, opt_bl bl b x = Ok y -> length y = length x) by (intros x y E'; unfold opt_bl in E'; destruct b; [eauto|congruence]).
  assert (A : forall x p, calc_AriasIntensity x = Ok p -> length (fst p) = length x).
  { intros x p E'. unfold calc_AriasIntensity in E'. destruct (first_step x); [|discriminate]. cbn [bind] in E'. destruct (last_res _); [|discriminate]. injection E' as <-. cbn [fst].
    rewrite arias_length. apply vals_length. }
  match goal with H : Nat.eqb _ _ = true |- _ => apply Nat.eqb_eq in H; unfold normalise in H; rewrite !map_length in H end.
  repeat match goal with
  | H : opt_bl _ _ _ = Ok _ |- _ => apply B in H
  | H : filt _ _ _ _ _ = Ok _ |- _ => apply F in H
  | H : calc_AriasIntensity _ = Ok _ |- _ => apply A in H
  end. congruence.
Qed.

Example C50_instance : S_float (fun x => 2 / PI * atan x) 1 2 = 5.
Proof.
  pose proof eps64_lt_eps2. pose proof eps2_lt_1. rewrite C50_score_of_ratio by lra. replace (2 / 1 - 1) with 1 by lra. rewrite atan_1.
  field. apply Rgt_not_eq, PI_RGT_0.
Qed.

(** ** C51 cross correlation *)
Theorem C51_value : forall bl m s f F, length m = length s -> (2 <= length m)%nat -> f < F -> 0 < step_of m -> 0 < step_of s ->
  (* zero record *)
  ((sq (vals m) = 0 \/ sq (vals s) = 0) -> d_10 bl m s (Some f) (Some F) false = Ok NaN) /\
  (0 < sq (vals m) -> 0 < sq (vals s) ->
    (dot (vals m) (vals s) = 0 -> d_10 bl m s (Some f) (Some F) false = Ok PInf) /\
    (dot (vals m) (vals s) <> 0 ->
      d_10 bl m s (Some f) (Some F) false =
        Ok (Fin (sqrt (step_of s / step_of m) * sqrt (sq (vals m) * sq (vals s)) / (10 * Rabs (dot (vals m) (vals s))))))).
Proof.
  intros bl m s f F HL Hm Hf H1 H2. unfold d_10, opt_bl. cbn [bind]. rewrite first_step_ok by exact Hm. cbn [bind]. rewrite first_step_ok by lia. cbn [bind band].
  rewrite (proj2 (Rleb_false F f)) by exact Hf. cbn [bind]. rewrite HL, Nat.eqb_refl. fold (dot (vals m) (vals s)). fold (sq (vals m)) (sq (vals s)).
  set (d := dot (vals m) (vals s)). set (A := sq (vals m)). set (B := sq (vals s)). set (h1 := step_of m) in *. set (h2 := step_of s) in *.
  assert (PA : 0 <= A) by apply sq_nonneg. assert (PB : 0 <= B) by apply sq_nonneg.
  assert (CS : d * d <= A * B) by (apply cauchy_schwarz; rewrite !vals_length; exact HL).
  assert (QA : 0 <= A * h1) by (apply Rmult_le_pos; lra). assert (QB : 0 <= B * h2) by (apply Rmult_le_pos; lra).
  rewrite (proj2 (Rltb_false (A * h1) 0)) by lra. rewrite (proj2 (Rltb_false (B * h2) 0)) by lra. cbn [orb]. split.
  - intros Hz. assert (Hd : d = 0) by (destruct Hz as [Z|Z]; rewrite Z in CS; nra).
    rewrite (proj2 (Reqb_true (sqrt (A * h1) * sqrt (B * h2)) 0)) by (destruct Hz as [Z|Z]; rewrite Z, Rmult_0_l, sqrt_0; ring).
    rewrite Hd, (proj2 (Reqb_true (0 * h1) 0)) by ring. reflexivity.
  - intros HA HB. assert (SA : 0 < sqrt (A * h1)) by (apply sqrt_lt_R0, Rmult_lt_0_compat; assumption).
    assert (SB : 0 < sqrt (B * h2)) by (apply sqrt_lt_R0, Rmult_lt_0_compat; assumption).
    rewrite (proj2 (Reqb_false (sqrt (A * h1) * sqrt (B * h2)) 0)) by (apply Rgt_not_eq, Rmult_lt_0_compat; assumption). split; intros Hd.
    + rewrite Hd, (proj2 (Reqb_true (0 * h1) 0)) by ring. reflexivity.
    + rewrite (proj2 (Reqb_false (d * h1) 0)) by (apply Rmult_integral_contrapositive; split; lra). do 2 f_equal.
      assert (SN : 0 < Rabs d) by (apply Rabs_pos_lt, Hd).
      unfold Rdiv at 2. rewrite !Rabs_mult, (Rabs_pos_eq h1) by lra. rewrite (Rabs_pos_eq (/ (sqrt (A * h1) * sqrt (B * h2)))) by (apply Rlt_le, Rinv_0_lt_compat, Rmult_lt_0_compat; assumption).
      rewrite !sqrt_mult, sqrt_div by lra. assert (K1 : sqrt h1 * sqrt h1 = h1) by (apply sqrt_sqrt; lra).
      assert (0 < sqrt A) by (apply sqrt_lt_R0, HA). assert (0 < sqrt B) by (apply sqrt_lt_R0, HB).
      assert (0 < sqrt h1) by (apply sqrt_lt_R0, H1). assert (0 < sqrt h2) by (apply sqrt_lt_R0, H2). remember (sqrt h1) as q. rewrite <- K1. field. repeat split; lra.
Qed.

(** With equal time steps the score is at least 0.1, and 0.1 exactly for
    proportional records (of either sign). *)
Theorem C51_at_least_one_tenth : forall bl m s f F, length m = length s -> (2 <= length m)%nat -> f < F -> 0 < step_of m -> step_of s = step_of m ->
  0 < sq (vals m) -> 0 < sq (vals s) -> dot (vals m) (vals s) <> 0 ->
  exists d, d_10 bl m s (Some f) (Some F) false = Ok (Fin d) /\ 1/10 <= d /\ (d = 1/10 <-> exists c, vals s = map (fun x => c * x) (vals m)).
Proof.
  intros bl m s f F HL Hm Hf H1 H2 HA HB Hd. destruct (C51_value bl m s f F HL Hm Hf H1 ltac:(lra)) as [_ H]. destruct (H HA HB) as [_ E]. clear H.
  rewrite H2 in E. replace (step_of m / step_of m) with 1 in E by (field; lra). rewrite sqrt_1, Rmult_1_l in E.
  set (A := sq (vals m)) in *. set (B := sq (vals s)) in *. set (d := dot (vals m) (vals s)) in *.
  assert (LV : length (vals m) = length (vals s)) by (rewrite !vals_length; exact HL).
  assert (CS : d * d <= A * B) by (apply cauchy_schwarz, LV).
  assert (SN : 0 < Rabs d) by (apply Rabs_pos_lt, Hd). assert (SQ : Rabs d * Rabs d = d * d) by (unfold Rabs; destruct (Rcase_abs d); ring).
  assert (Hge : Rabs d <= sqrt (A * B)) by (apply Rsqr_incr_0_var; [unfold Rsqr; rewrite sqrt_sqrt by nra; lra|apply sqrt_pos]).
  exists (sqrt (A * B) / (10 * Rabs d)). split; [apply E, Hd|]. split.
  - apply Rmult_le_reg_r with (10 * Rabs d); [lra|]. unfold Rdiv at 2. rewrite Rmult_assoc, Rinv_l by lra. lra.
  - rewrite <- cauchy_schwarz_eq by assumption. fold d A B. split; intros H.
    + assert (sqrt (A * B) = Rabs d). { apply Rmult_eq_compat_r with (r := 10 * Rabs d) in H. unfold Rdiv in H. rewrite Rmult_assoc, Rinv_l in H by lra. lra. }
      rewrite <- SQ, <- H0. apply sqrt_sqrt. nra.
    + replace (A * B) with (Rabs d * Rabs d) by lra. rewrite sqrt_square by lra. field. lra.
Qed.

(** With a coarser measurement the score can be below 0.1 (finding). *)
Theorem C51_time_steps_refuted : exists m s d, length m = length s /\ 0 < step_of m /\ 0 < step_of s /\
  d_10 (fun x => Ok x) m s (Some 1) (Some 2) false = Ok (Fin d) /\ d < 1/10.
Proof.
  set (m := [(0, 1); (4, 1)] : signal). set (s := [(0, 1); (1, 1)] : signal). exists m, s.
  assert (S1 : step_of m = 4) by (unfold step_of, m; cbn; lra). assert (S2 : step_of s = 1) by (unfold step_of, s; cbn; lra).
  assert (Q : sq (vals m) = 2) by (unfold sq, m; cbn; lra). assert (Q' : sq (vals s) = 2) by (unfold sq, s; cbn; lra).
  assert (D : dot (vals m) (vals s) = 2) by (unfold dot, m, s; cbn; lra).
  destruct (C51_value (fun x => Ok x) m s 1 2 eq_refl ltac:(cbn; lia) ltac:(lra) ltac:(lra) ltac:(lra)) as [_ H].
  destruct (H ltac:(lra) ltac:(lra)) as [_ E]. specialize (E ltac:(lra)). rewrite S1, S2, Q, Q', D in E.
  exists (sqrt (1 / 4) * sqrt (2 * 2) / (10 * Rabs 2)). split; [reflexivity|]. split; [lra|]. split; [lra|]. split; [exact E|].
  replace (1 / 4) with (1/2 * (1/2)) by lra. rewrite !sqrt_square by lra. rewrite Rabs_pos_eq by lra. lra.
Qed.

Theorem C51_unbounded : forall B, exists m s d, length m = length s /\ step_of s = step_of m /\ 0 < step_of m /\
  d_10 (fun x => Ok x) m s (Some 1) (Some 2) false = Ok (Fin d) /\ B < d.
Proof.
  intros B. pose proof (Rle_abs B) as HB. pose proof (Rabs_pos B) as HB0. set (e := / (10 * (Rabs B + 1))). assert (He : 0 < e) by (apply Rinv_0_lt_compat; lra).
  set (m := [(0, 1); (1, 0)] : signal). set (s := [(0, e); (1, 1)] : signal). exists m, s.
  assert (S1 : step_of m = 1) by (unfold step_of, m; cbn; lra). assert (S2 : step_of s = 1) by (unfold step_of, s; cbn; lra).
  assert (Q : sq (vals m) = 1) by (unfold sq, m; cbn; lra). assert (Q' : sq (vals s) = e * e + 1) by (unfold sq, s; cbn; lra).
  assert (D : dot (vals m) (vals s) = e) by (unfold dot, m, s; cbn; lra).
  destruct (C51_value (fun x => Ok x) m s 1 2 eq_refl ltac:(cbn; lia) ltac:(lra) ltac:(lra) ltac:(lra)) as [_ H].
  destruct (H ltac:(lra) ltac:(nra)) as [_ E]. specialize (E ltac:(lra)). rewrite S1, S2, Q, Q', D in E.
  eexists. split; [reflexivity|]. split; [lra|]. split; [lra|]. split; [exact E|].
  replace (1 / 1) with 1 by lra. rewrite sqrt_1, Rabs_pos_eq, Rmult_1_l, Rmult_1_l by lra.
  assert (1 <= sqrt (e * e + 1)) by (rewrite <- sqrt_1 at 1; apply sqrt_le_1_alt; nra).
  apply Rlt_le_trans with (1 / (10 * e)).
  - unfold e. replace (1 / (10 * / (10 * (Rabs B + 1)))) with (Rabs B + 1) by (field; lra). lra.
  - unfold Rdiv. apply Rmult_le_compat_r; [apply Rlt_le, Rinv_0_lt_compat; lra|assumption].
Qed.

Theorem C51_errors : forall bl m s fmin fmax,
  ((2 <= length m)%nat -> (2 <= length s)%nat -> (fmin = None \/ fmax = None) -> d_10 bl m s fmin fmax false = Err TypeError) /\
  (forall f F, (2 <= length m)%nat -> (2 <= length s)%nat -> F <= f -> d_10 bl m s (Some f) (Some F) false = Err ValueError) /\
  (forall f F, (2 <= length m)%nat -> (2 <= length s)%nat -> f < F -> length m <> length s -> d_10 bl m s (Some f) (Some F) false = Err TypeError).
Proof.
  intros bl m s fmin fmax. unfold d_10, opt_bl. cbn [bind]. repeat split; intros.
  - rewrite !first_step_ok by assumption. cbn [bind]. destruct H1; subst; [reflexivity|]. destruct fmin; reflexivity.
  - rewrite !first_step_ok by assumption. cbn [bind band]. rewrite (proj2 (Rleb_true F f)) by assumption. reflexivity.
  - rewrite !first_step_ok by assumption. cbn [bind band]. rewrite (proj2 (Rleb_false F f)) by assumption. cbn [bind]. rewrite (proj2 (Nat.eqb_neq _ _)) by assumption. reflexivity.
Qed.

Example C51_instance : exists d, d_10 (fun x => Ok x) [(0, 1); (1, 2)] [(0, -2); (1, -4)] (Some 1) (Some 2) false = Ok (Fin d) /\ d = 1/10.
Proof.
  destruct (C51_at_least_one_tenth (fun x => Ok x) [(0, 1); (1, 2)] [(0, -2); (1, -4)] 1 2) as (d & E & _ & I);
    try (unfold step_of, sq, dot; cbn; lra); [reflexivity|cbn; lia|].
  exists d. split; [exact E|]. apply I. exists (-2). cbn. f_equal; [lra|]. f_equal. lra.
Qed.

(** ** C52 which slots a call fills *)

(** The limits a call uses: by default the lowest and the highest frequency the
    record resolves. *)
Definition limits (m : signal) (o : gopts) : res (R * R) :=
  let! dt := first_step m in
  let F := match o_fmax o with Some f => f | None => / dt / 2 end in
  let f := match o_fmin o with Some f => f | None => / dt / INR (length m) end in
  if Rltb f F then Ok (f, F) else Err ValueError.

(** A group of scores: requested or not, first slot, value. *)
Definition grp : Type := bool * nat * res (list num).

Section C52.
Variable erf : R -> R.
Variable bl : signal -> res signal.
Variable hp : R -> signal -> res signal.
Variable bp : R -> R -> signal -> res signal.
Variable wav : signal -> res signal.
Variable resp : signal -> R -> R -> res (list R * list R).
Variable four : signal -> res (list R * list R).
Variable f32 : num -> num.

Definition groups (m s : signal) (o : gopts) (f F : R) : list grp :=
  [(o_arias o, 0%nat, d_1234 erf bl hp bp m s f (Some F) (o_baseline o));
   (o_rms o, 4%nat, d_567 erf bl hp bp wav m s f (Some F) (o_baseline o));
   (o_spectra o, 7%nat, d_89 erf bl resp four m s (Some f) (Some F) (o_baseline o));
   (o_cross o, 9%nat, match d_10 bl m s (Some f) (Some F) (o_baseline o) with Ok x => Ok [x] | Err e => Err e end)].

(** What must be returned: the requested groups in order, or the first exception. *)
Fixpoint outcome (gs : list grp) : res (list num) :=
  match gs with
  | [] => Ok []
  | (false, _, _) :: gs' => outcome gs'
  | (true, _, Err e) :: _ => Err e
  | (true, _, Ok l) :: gs' => match outcome gs' with Ok l' => Ok (l ++ l') | Err e => Err e end
  end.
(** What is computed for slot [i], if anything. *)
Fixpoint computed (gs : list grp) (i : nat) : option num :=
  match gs with
  | [] => None
  | (false, _, _) :: gs' => computed gs' i
  | (true, _, Err e) :: _ => None
  | (true, k, Ok l) :: gs' => if (Nat.leb k i && Nat.ltb i (k + length l))%bool then Some (nth (i - k) l NaN) else computed gs' i
  end.

Fixpoint placed (k0 n : nat) (gs : list grp) : Prop :=
  match gs with
  | [] => (k0 <= n)%nat
  | (_, k, d) :: gs' => (k0 <= k)%nat /\ exists k1, (forall l, d = Ok l -> (k + length l <= k1)%nat) /\ (k <= k1)%nat /\ placed k1 n gs'
  end.
Lemma placed_le gs : forall k0 n, placed k0 n gs -> (k0 <= n)%nat.
Proof. induction gs as [|[[on k] d] gs IH]; intros k0 n H; [exact H|]. destruct H as (A & k1 & _ & B & C). apply IH in C. lia. Qed.
Lemma computed_below gs : forall k0 n i, placed k0 n gs -> (i < k0)%nat -> computed gs i = None.
Proof.
  induction gs as [|[[on k] d] gs IH]; intros k0 n i H Hi; [reflexivity|]. destruct H as (A & k1 & B & B' & C). cbn [computed].
  assert (E : computed gs i = None) by (apply (IH k1 n); [exact C|lia]). destruct on; [|exact E]. destruct d; [|reflexivity].
  replace (Nat.leb k i) with false by (symmetry; apply Nat.leb_gt; lia). exact E.
Qed.

Definition step (st : list num * res (list num)) (g : grp) := block f32 (fst (fst g)) (snd (fst g)) (snd g) st.
Lemma fold_err gs : forall slots e, fold_left step gs (slots, Err e) = (slots, Err e).
Proof. induction gs as [|g gs IH]; intros; [reflexivity|]. cbn [fold_left]. unfold step at 2. cbn [block]. apply IH. Qed.
Lemma fold_spec gs : forall k0 slots out, placed k0 (length slots) gs ->
  let r := fold_left step gs (slots, Ok out) in
  snd r = match outcome gs with Ok l => Ok (out ++ l) | Err e => Err e end /\
  length (fst r) = length slots /\
  forall i, nth i (fst r) NaN = match computed gs i with Some v => f32 v | None => nth i slots NaN end.
Proof.
  induction gs as [|[[on k] d] gs IH]; intros k0 slots out H.
  - cbn. rewrite app_nil_r. auto.
  - destruct H as (A & k1 & B & B' & C). cbn [fold_left outcome computed]. unfold step at 2 4 6. cbn [fst snd block]. destruct on.
    + destruct d as [l|e].
      * specialize (B l eq_refl). pose proof (placed_le _ _ _ C) as Hle.
        assert (HL : length (fill f32 slots k l) = length slots) by (apply fill_length; lia).
        destruct (IH k1 (fill f32 slots k l) (out ++ l)) as (I1 & I2 & I3); [rewrite HL; exact C|]. cbv zeta. split; [|split].
        -- rewrite I1. destruct (outcome gs); [rewrite app_assoc|]; reflexivity.
        -- rewrite I2. exact HL.
        -- intros i. rewrite I3, fill_nth by lia. destruct (Nat.leb k i && Nat.ltb i (k + length l))%bool eqn:E; [|reflexivity].
           apply andb_true_iff in E. destruct E as [E1 E2]. apply Nat.leb_le in E1. apply Nat.ltb_lt in E2.
           rewrite (computed_below gs k1 (length slots)) by (assumption || lia). reflexivity.
      * rewrite fold_err. cbn. auto.
    + apply (IH k1); [exact C].
Qed.

Lemma d_1234_len m s f F b l : d_1234 erf bl hp bp m s f F b = Ok l -> length l = 4%nat.
Proof. intros H. unfold d_1234 in H. unbind H. injection H as <-. reflexivity. Qed.
Lemma d_567_len m s f F b l : d_567 erf bl hp bp wav m s f F b = Ok l -> length l = 3%nat.
Proof. intros H. unfold d_567 in H. unbind H. injection H as <-. reflexivity. Qed.
Lemma d_89_len m s f F b l : d_89 erf bl resp four m s f F b = Ok l -> length l = 2%nat.
Proof. intros H. unfold d_89 in H. unbind H. injection H as <-. reflexivity. Qed.
Lemma groups_placed m s o f F : placed 0 10 (groups m s o f F).
Proof.
  cbn [groups placed]. split; [lia|]. exists 4%nat. split; [intros l E; apply d_1234_len in E; lia|]. split; [lia|].
  split; [lia|]. exists 7%nat. split; [intros l E; apply d_567_len in E; lia|]. split; [lia|].
  split; [lia|]. exists 9%nat. split; [intros l E; apply d_89_len in E; lia|]. split; [lia|].
  split; [lia|]. exists 10%nat. split; [|lia]. intros l E. destruct (d_10 _ _ _ _ _ _); [injection E as <-; cbn; lia|discriminate].
Qed.

Lemma calc_scores_fold g o : calc_scores erf bl hp bp wav resp four f32 g o =
  match limits (g_meas g) o with
  | Err e => (g, Err e)
  | Ok (f, F) => let r := fold_left step (groups (g_meas g) (g_simu g) o f F) (g_scores g, Ok []) in (mkgof (g_meas g) (g_simu g) (fst r), snd r)
  end.
Proof.
  unfold calc_scores, limits. destruct (first_step (g_meas g)) as [dt|e]; [|reflexivity]. cbn [bind].
  replace (1 / dt) with (/ dt) by (unfold Rdiv; ring).
  set (F := match o_fmax o with Some f => f | None => _ end). set (f := match o_fmin o with Some f => f | None => _ end).
  destruct (Rleb_spec F f), (Rltb_spec f F); try lra; [reflexivity|]. cbn [groups fold_left]. reflexivity.
Qed.

(** Every call: the exception or the returned array, and all ten slots. *)
Theorem C52_calc_scores : forall g o g' r, length (g_scores g) = 10%nat ->
  calc_scores erf bl hp bp wav resp four f32 g o = (g', r) ->
  g_meas g' = g_meas g /\ g_simu g' = g_simu g /\ length (g_scores g') = 10%nat /\
  (forall e, limits (g_meas g) o = Err e -> g' = g /\ r = Err e) /\
  (forall f F, limits (g_meas g) o = Ok (f, F) ->
     r = outcome (groups (g_meas g) (g_simu g) o f F) /\
     forall i, nth i (g_scores g') NaN =
       match computed (groups (g_meas g) (g_simu g) o f F) i with Some v => f32 v | None => nth i (g_scores g) NaN end).
Proof.
  intros g o g' r HL. rewrite calc_scores_fold. destruct (limits (g_meas g) o) as [[f F]|e] eqn:E.
  - cbv zeta. destruct (fold_spec (groups (g_meas g) (g_simu g) o f F) 0 (g_scores g) []) as (I1 & I2 & I3); [rewrite HL; apply groups_placed|].
    set (rr := fold_left _ _ _) in *. clearbody rr. intros [= <- <-]. cbn [g_meas g_simu g_scores]. split; [reflexivity|]. split; [reflexivity|]. split; [rewrite <- HL; exact I2|]. split; [intros e; discriminate|].
    intros f' F' [= <- <-]. rewrite I1. split; [destruct (outcome _); reflexivity|exact I3].
  - intros [= <- <-]. repeat split; auto; congruence.
Qed.

(** Histories of calls on one object. *)
Definition run_calls (g : gof) (os : list gopts) : gof := fold_left (fun g o => fst (calc_scores erf bl hp bp wav resp four f32 g o)) os g.
Definition computes (m s : signal) (o : gopts) (i : nat) : option num :=
  match limits m o with Ok (f, F) => computed (groups m s o f F) i | Err _ => None end.

Lemma run_calls_inv os : forall g, length (g_scores g) = 10%nat ->
  let g' := run_calls g os in
  g_meas g' = g_meas g /\ g_simu g' = g_simu g /\ length (g_scores g') = 10%nat /\
  forall i, (forall o, In o os -> computes (g_meas g) (g_simu g) o i = None) -> nth i (g_scores g') NaN = nth i (g_scores g) NaN.
Proof.
  induction os as [|o os IH]; intros g HL; cbv zeta; [cbn; auto|]. unfold run_calls. cbn [fold_left]. fold (run_calls (fst (calc_scores erf bl hp bp wav resp four f32 g o)) os).
  destruct (calc_scores erf bl hp bp wav resp four f32 g o) as [g1 r] eqn:E. cbn [fst].
  destruct (C52_calc_scores g o g1 r HL E) as (M & S & L & He & Hok). destruct (IH g1 L) as (M' & S' & L' & K).
  rewrite M', S', M, S. repeat split; auto. intros i Hi. rewrite K by (intros o' Ho'; rewrite M, S; apply Hi; right; exact Ho').
  specialize (Hi o (or_introl eq_refl)). unfold computes in Hi. destruct (limits (g_meas g) o) as [[f F]|e] eqn:El.
  - destruct (Hok f F eq_refl) as [_ Hn]. rewrite Hn, Hi. reflexivity.
  - destruct (He e eq_refl) as [-> _]. reflexivity.
Qed.

Theorem C52_history : forall m s g os, gof_new m s = Ok g ->
  g_meas (run_calls g os) = m /\ g_simu (run_calls g os) = s /\ length (g_scores (run_calls g os)) = 10%nat /\
  (forall i, (forall o, In o os -> computes m s o i = None) -> nth i (g_scores (run_calls g os)) NaN = NaN) /\
  (forall i os1 o os2 v, os = os1 ++ o :: os2 -> computes m s o i = Some v -> (forall o', In o' os2 -> computes m s o' i = None) ->
     nth i (g_scores (run_calls g os)) NaN = f32 v).
Proof.
  intros m s g os E. unfold gof_new in E. destruct (Nat.eqb _ _); [|discriminate]. assert (Eg : g = mkgof m s (repeat NaN 10)) by congruence. clear E. subst g. set (g := mkgof m s (repeat NaN 10)).
  assert (HL : length (g_scores g) = 10%nat) by reflexivity.
  destruct (run_calls_inv os g HL) as (M & S & L & K). change (g_meas g) with m in *. change (g_simu g) with s in *. repeat split; auto.
  - intros i Hi. rewrite K by exact Hi. change (g_scores g) with (repeat NaN 10). destruct (Nat.lt_ge_cases i 10).
    + apply nth_repeat.
    + apply nth_overflow. cbn. lia.
  - clear M S L K. intros i os1 o os2 v -> Hc Hn.
    assert (Erun : run_calls g (os1 ++ o :: os2) = run_calls (fst (calc_scores erf bl hp bp wav resp four f32 (run_calls g os1) o)) os2) by (unfold run_calls; rewrite fold_left_app; reflexivity).
    rewrite Erun. destruct (run_calls_inv os1 g HL) as (M & S & L & _). cbv zeta in M, S, L. change (g_meas g) with m in M. change (g_simu g) with s in S.
    set (g1 := run_calls g os1) in *. destruct (calc_scores erf bl hp bp wav resp four f32 g1 o) as [g2 r] eqn:E. cbn [fst].
    destruct (C52_calc_scores g1 o g2 r L E) as (M2 & S2 & L2 & _ & Hok). destruct (run_calls_inv os2 g2 L2) as (_ & _ & _ & K).
    rewrite K by (intros o' Ho'; rewrite M2, S2, M, S; apply Hn, Ho'). rewrite M, S in Hok. unfold computes in Hc.
    destruct (limits m o) as [[f F]|e]; [|discriminate]. destruct (Hok f F eq_refl) as [_ Hi]. rewrite Hi, Hc. reflexivity.
Qed.
End C52.

(** The printed average exists exactly when some slot holds a score. *)
Theorem C52_average_exists : forall g,
  (str_average g = Err ZeroDivisionError <-> forall x, In x (g_scores g) -> x = NaN) /\
  (forall a, str_average g = Ok (Fin a) -> forall lo hi, (forall r, In (Fin r) (g_scores g) -> lo <= r <= hi) -> lo <= a <= hi).
Proof.
  intros g. unfold str_average. set (p := fun x => match x with NaN => false | _ => true end). split; [split|].
  - destruct (filter p (g_scores g)) as [|y l] eqn:E; [|destruct (existsb _ _); discriminate]. intros _ x Hx. destruct x as [r| | |]; auto;
      exfalso; eapply in_nil; rewrite <- E; apply filter_In; split; [exact Hx|reflexivity|exact Hx|reflexivity|exact Hx|reflexivity].
  - intros H. destruct (filter p (g_scores g)) as [|y l] eqn:E; [reflexivity|]. exfalso. assert (Hy : In y (filter p (g_scores g))) by (rewrite E; left; reflexivity).
    apply filter_In in Hy. destruct Hy as [Hy Hp]. rewrite (H y Hy) in Hp. discriminate.
  - intros a. destruct (filter p (g_scores g)) as [|y l] eqn:E; [discriminate|]. destruct (existsb _ _); [discriminate|]. intros Ha lo hi H.
    assert (Ha' : nmean (y :: l) = Fin a) by congruence. clear Ha. rename Ha' into Ha.
    apply (nmean_bounds _ _ _ _ Ha). intros r Hr. apply H. apply (filter_In p). rewrite E. exact Hr.
Qed.

(** A two-sample record scored for cross correlation only, then asked for
    impossible limits: the slot survives, the others stay empty. *)
Example C52_instance : let m := [(0, 1); (1, 2)] in let id := fun x : signal => Ok x in
  let o1 := mkgopts (Some (1/4)) (Some (1/2)) false false false true false in
  let o2 := mkgopts (Some 2) (Some 1) true true true true false in
  exists g, gof_new m m = Ok g /\
    let g' := run_calls (fun _ => 0) id (fun _ => id) (fun _ _ => id) id (fun _ _ _ => Err ValueError) (fun _ => Err ValueError) (fun x => x) g [o1; o2] in
    nth 9 (g_scores g') NaN = Fin (1/10) /\ nth 0 (g_scores g') NaN = NaN.
Proof.
  intros m id o1 o2. eexists. split; [reflexivity|]. cbv zeta.
  match goal with |- nth 9 (g_scores (run_calls ?a ?b ?c ?d ?e ?f ?h ?i ?g ?os)) _ = _ /\ _ =>
    destruct (C52_history a b c d e f h i m m g os eq_refl) as (_ & _ & _ & H0 & H1) end.
  assert (L1 : limits m o1 = Ok (1/4, 1/2)) by (unfold limits, first_step; cbn -[Rltb]; unfold Rltb; destruct (Rlt_dec _ _); [reflexivity|lra]).
  assert (L2 : limits m o2 = Err ValueError) by (unfold limits, first_step; cbn -[Rltb]; unfold Rltb; destruct (Rlt_dec _ _); [lra|reflexivity]).
  assert (D : d_10 id m m (Some (1/4)) (Some (1/2)) false = Ok (Fin (1/10))).
  { destruct (C51_at_least_one_tenth id m m (1/4) (1/2)) as (d & E & _ & I); try (unfold step_of, sq, dot; cbn; lra); [reflexivity|cbn; lia|].
    rewrite E. repeat f_equal. apply I. exists 1. cbn. f_equal; [lra|]. f_equal. lra. }
  split.
  - apply (H1 9%nat [] o1 [o2]); [reflexivity| |].
    + unfold computes. rewrite L1. cbn [groups computed o1 o_arias o_rms o_spectra o_cross o_baseline]. rewrite D. reflexivity.
    + intros o' [<-|[]]. unfold computes. rewrite L2. reflexivity.
  - apply H0. intros o' [<-|[<-|[]]]; unfold computes; rewrite ?L1, ?L2; [|reflexivity].
    cbn [groups computed o1 o_arias o_rms o_spectra o_cross o_baseline]. rewrite D. reflexivity.
Qed.

(** ** C76 a record scored against itself *)
Definition zero_or_nan (x : num) : Prop := x = Fin 0 \/ x = NaN.

Lemma S_float_self erf x : erf 0 = 0 -> S_float erf x x = 0.
Proof.
  intros H. unfold S_float, rela_diff. replace (Rmax x eps64 - Rmax x eps64) with 0 by lra.
  destruct (Rltb _ _); [|unfold Rdiv; rewrite Rmult_0_l]; rewrite H; lra.
Qed.
Lemma S_el_self erf x : erf 0 = 0 -> S_el erf x x = match x with Fin _ => Fin 0 | _ => NaN end.
Proof.
  intros H. destruct x; try reflexivity. cbn. unfold rela_diff. replace (r - r) with 0 by lra.
  destruct (Rltb _ _); [|unfold Rdiv; rewrite Rmult_0_l]; rewrite H; f_equal; lra.
Qed.
Lemma S_array_self erf l : erf 0 = 0 ->
  snd (S_array erf l l) = Ok (map (fun x => match floor_eps x with Fin _ => Fin 0 | _ => NaN end) l).
Proof.
  intros H. unfold S_array. cbn [snd]. rewrite Nat.eqb_refl. f_equal. induction l as [|x l IH]; [reflexivity|]. cbn [map combine fst snd]. rewrite IH, S_el_self by exact H. reflexivity.
Qed.
Lemma nsum_zn l : Forall zero_or_nan l -> zero_or_nan (nsum l).
Proof.
  induction 1 as [|x l [->| ->] Hl [IH|IH]]; cbn [nsum]; [left; reflexivity| | | |]; rewrite ?IH; [left; f_equal; lra|right; reflexivity|right; reflexivity|right; reflexivity].
Qed.
Lemma nmean_zn l : Forall zero_or_nan l -> zero_or_nan (nmean l).
Proof.
  intros H. unfold nmean. destruct l as [|x l]; [right; reflexivity|]. set (L := x :: l) in *. destruct (nsum_zn L H) as [-> | ->]; [left; f_equal; unfold Rdiv; ring|right; reflexivity].
Qed.
Lemma self_zn l : Forall zero_or_nan (map (fun x => match floor_eps x with Fin _ => Fin 0 | _ => NaN end) l).
Proof. apply Forall_map, Forall_forall. intros x _. destruct (floor_eps x); [left|right|right|right]; reflexivity. Qed.
Lemma self_fin l : (forall x, In x l -> exists r, x = Fin r) ->
  map (fun x => match floor_eps x with Fin _ => Fin 0 | _ => NaN end) l = repeat (Fin 0) (length l).
Proof.
  induction l as [|x l IH]; intros H; [reflexivity|]. cbn [map length repeat]. rewrite IH by (intros; apply H; right; assumption). f_equal.
  destruct (H x (or_introl eq_refl)) as [r ->]. unfold floor_eps. destruct (nltb _ _); reflexivity.
Qed.
Lemma mean_self l : l <> [] -> (forall x, In x l -> exists r, x = Fin r) ->
  nmean (map (fun x => match floor_eps x with Fin _ => Fin 0 | _ => NaN end) l) = Fin 0.
Proof. intros Hn H. rewrite self_fin by exact H. apply nmean_zero. destruct l; [congruence|cbn; lia]. Qed.

(** For every record, all options and filters: the peak and RMS scores are
    zero, the four averaged scores are zero or NaN, and the first is zero as soon as
    the filtered record carries energy. *)
Theorem C76_identical_records : forall erf bl hp bp wav resp four m fmin fmax b, erf 0 = 0 ->
  (forall l, d_1234 erf bl hp bp m m fmin fmax b = Ok l ->
     exists d1 d2, l = [d1; d2; Fin 0; Fin 0] /\ zero_or_nan d1 /\ zero_or_nan d2 /\
     forall a x pk, opt_bl bl b (trim m) = Ok a -> filt hp bp fmin fmax a = Ok x -> calc_AriasIntensity x = Ok (fst pk, snd pk) -> snd pk <> 0 -> d1 = Fin 0) /\
  (forall l, d_567 erf bl hp bp wav m m fmin fmax b = Ok l -> l = [Fin 0; Fin 0; Fin 0]) /\
  (forall F f l, d_89 erf bl resp four m m f F b = Ok l -> exists d8 d9, l = [d8; d9] /\ zero_or_nan d8 /\ zero_or_nan d9).
Proof.
  intros erf bl hp bp wav resp four m fmin fmax b He. split; [|split].
  - intros l H. unfold d_1234 in H.
    destruct (opt_bl bl b (trim m)) as [a|] eqn:Ea; [cbn [bind] in H|discriminate]. destruct (filt hp bp fmin fmax a) as [x|] eqn:Ex; [cbn [bind] in H|discriminate].
    destruct (calc_AriasIntensity x) as [pk|] eqn:Ep; [cbn [bind] in H|discriminate]. destruct (num_int x) as [vu|] eqn:Ev; [cbn [bind] in H|discriminate].
    destruct (calc_AriasIntensity (fst vu)) as [pe|] eqn:Ee; [cbn [bind] in H|discriminate]. cbv zeta in H. rewrite Nat.eqb_refl, !S_array_self in H by exact He. cbn [bind] in H.
    rewrite !S_float_self in H by exact He. injection H as <-. eexists _, _. split; [reflexivity|].
    split; [apply nmean_zn, self_zn|]. split; [apply nmean_zn, self_zn|].
    intros a' x' pk' [= <-] Ex' Ep' Hne. assert (x' = x) by congruence. subst x'. rewrite Ep in Ep'. assert (E12 : pk = pk') by (destruct pk, pk'; cbn in Ep'; congruence). subst pk'. 
    apply mean_self.
    + unfold calc_AriasIntensity in Ep. destruct (first_step x) eqn:F1; [|discriminate]. cbn [bind] in Ep. destruct (last_res _); [|discriminate]. cbn [bind] in Ep. injection Ep as <-. cbn [fst snd].
      destruct (Nat.lt_ge_cases (length x) 2) as [Hs|Hs]; [rewrite first_step_err in F1 by exact Hs; discriminate|]. destruct x as [|p1 [|p2 x]]; cbn in Hs; try lia. discriminate.
    + intros y Hy. assert (Hy' : In y (normalise (fst pk) (snd pk))) by (destruct (normalise (fst pk) (snd pk)); [destruct Hy|right; exact Hy]).
      unfold normalise in Hy'. apply in_map_iff in Hy'. destruct Hy' as (r & <- & _). rewrite (proj2 (Reqb_false _ _)) by exact Hne. eexists; reflexivity.
  - intros l H. unfold d_567 in H. destruct (rms_of _ _ _ _ _ _ _ m); [cbn [bind] in H|discriminate]. rewrite !S_float_self in H by exact He. congruence.
  - intros F f l H. unfold d_89 in H.
    destruct (opt_bl bl b m) as [m1|] eqn:E1; [cbn [bind] in H|discriminate]. destruct (first_step m1); [cbn [bind] in H|discriminate].
    destruct (band f F); [cbn [bind] in H|discriminate]. destruct (opt_bl bl b m1) as [m2|]; [cbn [bind] in H|discriminate]. cbv zeta in H.
    destruct (resp m2 _ _) as [rm|]; [cbn [bind] in H|discriminate]. destruct (first_ge _ _ _); [cbn [bind] in H|discriminate]. destruct (last_le _ _ _ _); [cbn [bind] in H|discriminate].
    destruct (four m2) as [fm|]; [cbn [bind] in H|discriminate]. destruct (first_ge _ _ _); [cbn [bind] in H|discriminate]. destruct (last_le _ _ _ _); [cbn [bind] in H|discriminate].
    rewrite !S_array_self in H by exact He. cbn [bind] in H. injection H as <-. eexists _, _. split; [reflexivity|]. split; apply nmean_zn, self_zn.
Qed.

Lemma dot_self l : dot l l = sq l.
Proof. unfold dot, sq. induction l as [|x l IH]; cbn [combine map rsum fst snd]; [reflexivity|]. rewrite IH. reflexivity. Qed.

Theorem C76_identical_cross_correlation : forall bl m f F, (2 <= length m)%nat -> f < F -> 0 < step_of m -> 0 < sq (vals m) ->
  d_10 bl m m (Some f) (Some F) false = Ok (Fin (1/10)).
Proof.
  intros bl m f F Hm Hf Hs Hq. pose proof (dot_self (vals m)) as Hd.
  destruct (C51_at_least_one_tenth bl m m f F eq_refl Hm Hf Hs eq_refl Hq Hq) as (d & E & _ & I); [lra|].
  rewrite E. do 2 f_equal. apply I. exists 1. rewrite <- (map_id (vals m)) at 1. apply map_ext. intros; lra.
Qed.

Example C76_instance : let m := map (fun k => (INR k, 1)) (seq 0 40) in let id := fun x : signal => Ok x in
  exists l, d_1234 (fun x => x) id (fun _ => id) (fun _ _ => id) m m 1 (Some 2) false = Ok l /\ nth 0 l NaN = Fin 0 /\ nth 2 l NaN = Fin 0.
Proof.
  intros m id. set (tm := trim m).
  assert (L : (2 <= length tm)%nat) by (vm_compute; lia).
  assert (V : vals tm = repeat 1 11) by reflexivity.
  assert (T : exists t0 t1 r, tm = (t0, 1) :: (t1, 1) :: r /\ t1 - t0 = 1) by (do 3 eexists; split; [reflexivity|cbn; lra]).
  assert (A : exists i, calc_AriasIntensity tm = Ok (i, 10 * (PI / (2 * (981 / 100))))).
  { unfold calc_AriasIntensity. rewrite first_step_ok by exact L. cbn [bind]. rewrite V. assert (S1 : step_of tm = 1) by (destruct T as (t0 & t1 & r & -> & E); exact E).
    rewrite S1. cbn [repeat arias_from]. unfold last_res. cbn [rev app]. cbn [bind]. eexists. do 2 f_equal. lra. }
  destruct A as [i A].
  assert (I : exists vu, num_int tm = Ok vu) by (unfold num_int; rewrite first_step_ok by exact L; cbn [bind]; eexists; reflexivity). destruct I as [vu I].
  assert (A2 : exists q, calc_AriasIntensity (fst vu) = Ok q).
  { destruct (num_int_spec tm L) as (v & u & E & Tv & _ & _ & _ & _). rewrite I in E. injection E as ->. cbn [fst].
    assert (Lv : (2 <= length v)%nat) by (rewrite <- (times_length v), Tv, times_length; exact L). unfold calc_AriasIntensity. rewrite first_step_ok by exact Lv. cbn [bind]. unfold last_res.
    destruct (rev (arias_from 0 (step_of v) (vals v))) eqn:Er; [|eexists; reflexivity]. exfalso. apply (f_equal (@length R)) in Er. rewrite rev_length, arias_length, vals_length in Er. cbn in Er. lia. }
  destruct A2 as [q A2].
  assert (D : exists l, d_1234 (fun x => x) id (fun _ => id) (fun _ _ => id) m m 1 (Some 2) false = Ok l).
  { unfold d_1234, opt_bl, filt, id. cbn [bind]. fold tm. rewrite A. cbn [bind]. rewrite I. cbn [bind]. rewrite A2. cbn [bind]. cbv zeta. rewrite Nat.eqb_refl, !S_array_self by reflexivity. eexists; reflexivity. }
  destruct D as [l D]. exists l. split; [exact D|].
  destruct (C76_identical_records (fun x => x) id (fun _ => id) (fun _ _ => id) id (fun _ _ _ => Err ValueError) (fun _ => Err ValueError) m 1 (Some 2) false eq_refl) as [H _].
  destruct (H l D) as (d1 & d2 & -> & _ & _ & K). split; [|reflexivity]. cbn [nth]. apply (K tm tm (i, 10 * (PI / (2 * (981 / 100))))); try reflexivity; [exact A|].
  cbn [snd]. pose proof PI_RGT_0. lra.
Qed.

(** ** C77 a simulation that is the measurement times a constant *)
Definition scl (c : R) (s : signal) : signal := map (fun p => (fst p, snd p * c)) s.
Definition homogeneous (f : signal -> res signal) : Prop := forall c s, f (scl c s) = match f s with Ok y => Ok (scl c y) | Err e => Err e end.

Lemma scl_vals c s : vals (scl c s) = map (fun x => x * c) (vals s).
Proof. unfold vals, scl. rewrite !map_map. reflexivity. Qed.
Lemma scl_times c s : times (scl c s) = times s.
Proof. unfold times, scl. rewrite map_map. reflexivity. Qed.
Lemma scl_first c s : first_step (scl c s) = first_step s.
Proof. unfold first_step. rewrite scl_times. reflexivity. Qed.
Lemma scl_with c s v : with_vals (scl c s) (map (fun x => x * c) v) = scl c (with_vals s v).
Proof.
  unfold with_vals. rewrite scl_times. generalize (times s). intros t. revert v. induction t as [|x t IH]; intros [|y v]; cbn; try reflexivity. rewrite IH. reflexivity.
Qed.
Lemma cumsum_from_scale c l : forall a, cumsum_from (a * c) (map (fun x => x * c) l) = map (fun x => x * c) (cumsum_from a l).
Proof. induction l as [|x l IH]; intros a; [reflexivity|]. cbn [map cumsum_from]. rewrite <- Rmult_plus_distr_r, IH. reflexivity. Qed.
Lemma cumsum_scale c l : cumsum (map (fun x => x * c) l) = map (fun x => x * c) (cumsum l).
Proof. unfold cumsum. rewrite <- cumsum_from_scale, Rmult_0_l. reflexivity. Qed.
Lemma map_mult_comm c d l : map (fun x => x * d) (map (fun x => x * c) l) = map (fun x => x * c) (map (fun x => x * d) l).
Proof. rewrite !map_map. apply map_ext. intros; ring. Qed.
Lemma num_int_scl c s : num_int (scl c s) = match num_int s with Ok p => Ok (scl c (fst p), scl c (snd p)) | Err e => Err e end.
Proof.
  unfold num_int. rewrite scl_first. destruct (first_step s) as [dt|]; [|reflexivity]. cbn [bind]. cbv zeta.
  rewrite scl_vals, cumsum_scale, (map_mult_comm c dt), cumsum_scale, (map_mult_comm c dt), !scl_with. reflexivity.
Qed.
Lemma arias_scale c dt a : forall acc, arias_from (acc * (c * c)) dt (map (fun x => x * c) a) = map (fun x => x * (c * c)) (arias_from acc dt a).
Proof. induction a as [|x a IH]; intros acc; [reflexivity|]. cbn [map arias_from]. f_equal. rewrite <- IH. f_equal. ring. Qed.
Lemma last_res_map {A B} (f : A -> B) l : last_res (map f l) = match last_res l with Ok x => Ok (f x) | Err e => Err e end.
Proof. unfold last_res. rewrite <- map_rev. destruct (rev l); reflexivity. Qed.
Lemma calc_Arias_scl c s : calc_AriasIntensity (scl c s) = match calc_AriasIntensity s with Ok p => Ok (map (fun x => x * (c * c)) (fst p), snd p * (c * c)) | Err e => Err e end.
Proof.
  unfold calc_AriasIntensity. rewrite scl_first. destruct (first_step s) as [dt|]; [|reflexivity]. cbn [bind]. cbv zeta. rewrite scl_vals.
  pose proof (arias_scale c dt (vals s) 0) as E. rewrite Rmult_0_l in E. rewrite E, last_res_map. destruct (last_res _); reflexivity.
Qed.
Lemma normalise_scale c i pk : c <> 0 -> normalise (map (fun x => x * (c * c)) i) (pk * (c * c)) = normalise i pk.
Proof.
  intros Hc. assert (Q : 0 < c * c) by nra. unfold normalise. rewrite map_map. apply map_ext. intros x.
  destruct (Reqb_spec pk 0) as [->|N].
  - rewrite (proj2 (Reqb_true _ _)) by ring. destruct (Reqb_spec x 0) as [->|Nx].
    + rewrite (proj2 (Reqb_true _ _)) by ring. reflexivity.
    + rewrite (proj2 (Reqb_false _ _)) by (apply Rmult_integral_contrapositive; lra). destruct (Rltb_spec 0 x).
      * rewrite (proj2 (Rltb_true _ _)) by nra. reflexivity.
      * rewrite (proj2 (Rltb_false _ _)) by nra. reflexivity.
  - rewrite (proj2 (Reqb_false _ _)) by (apply Rmult_integral_contrapositive; lra). f_equal. field. lra.
Qed.
Lemma rms_scl c s : rms (vals (scl c s)) = Rabs c * rms (vals s).
Proof.
  rewrite scl_vals. unfold rms. rewrite map_length, map_map.
  replace (rsum (map (fun x => x * c * (x * c)) (vals s))) with (c * c * rsum (map (fun x => x * x) (vals s))) by (induction (vals s); cbn [map rsum]; [ring|]; rewrite <- IHl; ring).
  unfold Rdiv. rewrite Rmult_assoc, sqrt_mult_alt by nra. f_equal. apply sqrt_Rsqr_abs.
Qed.
Lemma trim_scl c s : trim (scl c s) = scl c (trim s).
Proof. unfold trim, pyslice, slice, scl. rewrite map_length, skipn_map, firstn_map. reflexivity. Qed.
Lemma max_abs_scl c s : (exists p, max_abs (vals s) = Ok p) -> exists p, max_abs (vals (scl c s)) = Ok p.
Proof. rewrite scl_vals. unfold max_abs. destruct (vals s); cbn; intros [p H]; [discriminate|eexists; reflexivity]. Qed.
Lemma opt_bl_scl bl b : homogeneous bl -> homogeneous (opt_bl bl b).
Proof. intros H c s. unfold opt_bl. destruct b; [apply H|reflexivity]. Qed.
Lemma filt_scl hp bp fmin fmax : (forall f, homogeneous (hp f)) -> (forall f g, homogeneous (bp f g)) -> homogeneous (filt hp bp fmin fmax).
Proof. intros H K c s. unfold filt. destruct fmax; [apply K|apply H]. Qed.

Lemma rms_of_scl bl hp bp wav b fmin fmax c m ra rv ru : homogeneous bl -> (forall f, homogeneous (hp f)) -> (forall f g, homogeneous (bp f g)) -> homogeneous wav ->
  rms_of bl hp bp wav b fmin fmax m = Ok (ra, rv, ru) -> rms_of bl hp bp wav b fmin fmax (scl c m) = Ok (Rabs c * ra, Rabs c * rv, Rabs c * ru).
Proof.
  intros Hb Hh Hp Hw H. unfold rms_of in *. rewrite trim_scl.
  assert (E0 : (if b then filt hp bp fmin fmax (scl c (trim m)) else Ok (scl c (trim m))) = match (if b then filt hp bp fmin fmax (trim m) else Ok (trim m)) with Ok y => Ok (scl c y) | Err e => Err e end).
  { destruct b; [|reflexivity]. apply filt_scl; assumption. }
  rewrite E0. clear E0. destruct (if b then filt hp bp fmin fmax (trim m) else Ok (trim m)) as [a0|]; [cbn [bind] in *|discriminate].
  destruct (max_abs (vals a0)) as [p|] eqn:Ep; [cbn [bind] in *|discriminate]. destruct (max_abs_scl c a0 (ex_intro _ p Ep)) as [p' Ep']. rewrite Ep'. cbn [bind].
  rewrite (opt_bl_scl bl b Hb c a0). destruct (opt_bl bl b a0) as [a1|]; [cbn [bind] in *|discriminate]. rewrite num_int_scl. destruct (num_int a1) as [vu|]; [cbn [bind fst snd] in *|discriminate].
  assert (E1 : (if b then wav (scl c (snd vu)) else Ok (scl c (snd vu))) = match (if b then wav (snd vu) else Ok (snd vu)) with Ok y => Ok (scl c y) | Err e => Err e end).
  { destruct b; [|reflexivity]. apply Hw. }
  rewrite E1. clear E1. destruct (if b then wav (snd vu) else Ok (snd vu)) as [u|]; [cbn [bind] in *|discriminate]. injection H as <- <- <-. rewrite !rms_scl. reflexivity.
Qed.

(** With linear corrections, scaling changes only the peak and RMS scores, which
    measure the factor: by its square for the intensities, its size for the RMS. *)
Theorem C77_scaled_simulation : forall erf bl hp bp wav m fmin fmax b c, erf 0 = 0 -> c <> 0 ->
  homogeneous bl -> (forall f, homogeneous (hp f)) -> (forall f g, homogeneous (bp f g)) -> homogeneous wav ->
  (forall l, d_1234 erf bl hp bp m (scl c m) fmin fmax b = Ok l ->
     exists d1 d2 d3 d4, l = [d1; d2; Fin d3; Fin d4] /\ zero_or_nan d1 /\ zero_or_nan d2 /\
     forall a x i pk v ie pe, opt_bl bl b (trim m) = Ok a -> filt hp bp fmin fmax a = Ok x -> calc_AriasIntensity x = Ok (i, pk) ->
       num_int x = Ok v -> calc_AriasIntensity (fst v) = Ok (ie, pe) ->
       (pk <> 0 -> d1 = Fin 0) /\
       (eps2 <= pk -> eps64 <= pk * (c * c) -> d3 = erf (c * c - 1) * 10) /\ (eps2 <= pe -> eps64 <= pe * (c * c) -> d4 = erf (c * c - 1) * 10)) /\
  (forall l, d_567 erf bl hp bp wav m (scl c m) fmin fmax b = Ok l ->
     exists d5 d6 d7 ra rv ru, l = [Fin d5; Fin d6; Fin d7] /\ rms_of bl hp bp wav b fmin fmax m = Ok (ra, rv, ru) /\
     (eps2 <= ra -> eps64 <= Rabs c * ra -> d5 = erf (Rabs c - 1) * 10) /\
     (eps2 <= rv -> eps64 <= Rabs c * rv -> d6 = erf (Rabs c - 1) * 10) /\
     (eps2 <= ru -> eps64 <= Rabs c * ru -> d7 = erf (Rabs c - 1) * 10)).
Proof.
  intros erf bl hp bp wav m fmin fmax b c He Hc Hb Hh Hp Hw. pose proof eps2_pos as P2. split.
  - intros l H. unfold d_1234 in H. rewrite trim_scl, (opt_bl_scl bl b Hb c) in H.
    destruct (opt_bl bl b (trim m)) as [a|] eqn:Ea; [cbn [bind] in H|discriminate]. rewrite (filt_scl hp bp fmin fmax Hh Hp c) in H.
    destruct (filt hp bp fmin fmax a) as [x|] eqn:Ex; [cbn [bind] in H|discriminate]. rewrite calc_Arias_scl in H.
    destruct (calc_AriasIntensity x) as [[i pk]|] eqn:Ep; [cbn [bind fst snd] in H|discriminate]. rewrite num_int_scl in H.
    destruct (num_int x) as [v|] eqn:Ev; [cbn [bind fst snd] in H|discriminate]. rewrite calc_Arias_scl in H.
    destruct (calc_AriasIntensity (fst v)) as [[ie pe]|] eqn:Ee; [cbn [bind fst snd] in H|discriminate]. cbv zeta in H.
    rewrite !normalise_scale, Nat.eqb_refl, !S_array_self in H by assumption. cbn [bind] in H. injection H as <-. do 4 eexists. split; [reflexivity|].
    split; [apply nmean_zn, self_zn|]. split; [apply nmean_zn, self_zn|].
    intros a' x' i' pk' v' ie' pe' [= <-] Ex' Ep' Ev' Ee'. assert (x' = x) by congruence. subst x'. assert (v' = v) by congruence. subst v'.
    rewrite Ep in Ep'. rewrite Ee in Ee'. injection Ep' as <- <-. injection Ee' as <- <-. split; [|split].
    + intros Hne. apply mean_self.
      * unfold calc_AriasIntensity in Ep. destruct (first_step x) eqn:F1; [|discriminate]. cbn [bind] in Ep. destruct (last_res _); [|discriminate]. cbn [bind] in Ep. injection Ep as <- _.
        destruct (Nat.lt_ge_cases (length x) 2) as [Hs|Hs]; [rewrite first_step_err in F1 by exact Hs; discriminate|]. destruct x as [|p1 [|p2 x]]; cbn in Hs; try lia. discriminate.
      * intros y Hy. assert (Hy' : In y (normalise i pk)) by (destruct (normalise i pk); [destruct Hy|right; exact Hy]).
        unfold normalise in Hy'. apply in_map_iff in Hy'. destruct Hy' as (r & <- & _). rewrite (proj2 (Reqb_false _ _)) by exact Hne. eexists; reflexivity.
    + intros A B. rewrite C50_score_of_ratio by assumption. do 2 f_equal. field. lra.
    + intros A B. rewrite C50_score_of_ratio by assumption. do 2 f_equal. field. lra.
  - intros l H. unfold d_567 in H. destruct (rms_of bl hp bp wav b fmin fmax m) as [[[ra rv] ru]|] eqn:E; [cbn [bind] in H|discriminate].
    rewrite (rms_of_scl bl hp bp wav b fmin fmax c m ra rv ru Hb Hh Hp Hw E) in H. cbn [bind fst snd] in H. injection H as <-. do 6 eexists. split; [reflexivity|]. split; [reflexivity|].
    repeat split; intros A B; rewrite C50_score_of_ratio by assumption; do 2 f_equal; field; lra.
Qed.

Example C77_instance : let m := map (fun k => (INR k, 1)) (seq 0 31) in let id := fun x : signal => Ok x in
  homogeneous id /\ exists d5 d6 d7, d_567 (fun x => x) id (fun _ => id) (fun _ _ => id) id m (scl (-3) m) 1 (Some 2) true = Ok [Fin d5; Fin d6; Fin d7] /\ d5 = 20.
Proof.
  intros m id. assert (Hid : homogeneous id) by (intros c s; reflexivity). split; [exact Hid|].
  assert (D : exists ra rv ru, rms_of id (fun _ => id) (fun _ _ => id) id true 1 (Some 2) m = Ok (ra, rv, ru) /\ ra = 1).
  { unfold rms_of, filt, opt_bl, id. cbn [bind].
    assert (V : vals (trim m) = [1; 1]) by reflexivity. assert (L : (2 <= length (trim m))%nat) by (vm_compute; lia). unfold max_abs. rewrite V. cbn [map bind].
    unfold num_int. rewrite first_step_ok by exact L. cbn [bind fst snd]. do 3 eexists. split; [reflexivity|]. unfold rms. cbn [map rsum length INR].
    replace ((1 * 1 + (1 * 1 + 0)) / (1 + 1)) with 1 by lra. apply sqrt_1. }
  destruct D as (ra & rv & ru & D & ->).
  assert (S : exists l, d_567 (fun x => x) id (fun _ => id) (fun _ _ => id) id m (scl (-3) m) 1 (Some 2) true = Ok l).
  { unfold d_567. rewrite (rms_of_scl id (fun _ => id) (fun _ _ => id) id true 1 (Some 2) (-3) m 1 rv ru); auto. rewrite D. eexists; reflexivity. }
  destruct S as [l S]. destruct (C77_scaled_simulation (fun x => x) id (fun _ => id) (fun _ _ => id) id m 1 (Some 2) true (-3) eq_refl ltac:(lra) Hid ltac:(auto) ltac:(auto) Hid) as [_ H].
  destruct (H l S) as (d5 & d6 & d7 & ra' & rv' & ru' & -> & E & H5 & _). rewrite D in E. injection E as <- <- <-. exists d5, d6, d7. split; [exact S|].
  pose proof eps2_lt_1. pose proof eps64_lt_eps2. assert (Rabs (-3) = 3) by (rewrite Rabs_left; lra). rewrite H5; lra.
Qed.

(** ** C78 batches *)
Section C78.
Variable erf : R -> R.
Variable bl : signal -> res signal.
Variable hp : R -> signal -> res signal.
Variable bp : R -> R -> signal -> res signal.
Variable wav : signal -> res signal.
Variable resp : signal -> R -> R -> res (list R * list R).
Variable four : signal -> res (list R * list R).
Variable f32 : num -> num.
Let calc := calc_scores erf bl hp bp wav resp four f32.
Let run := batch_run erf bl hp bp wav resp four f32.

(** Both modes return the objects scored one by one, in order; serially the
    caller's objects are those results, in parallel they are left unscored. *)
Theorem C78_batch_results : forall l o,
  (forall g, In g l -> exists out, snd (calc g o) = Ok out) ->
  run l false o = (map (fun g => fst (calc g o)) l, Ok (map (fun g => fst (calc g o)) l)) /\
  run l true o = (l, Ok (map (fun g => fst (calc g o)) l)).
Proof.
  intros l o H. unfold run, batch_run, batch_parallel. fold calc. split.
  - induction l as [|g l IH]; [reflexivity|]. cbn [batch_serial map]. fold calc. destruct (H g (or_introl eq_refl)) as [out E].
    destruct (calc g o) as [g' r] eqn:Ec. cbn [snd] in E. subst r. rewrite IH by (intros; apply H; right; assumption). reflexivity.
  - f_equal. induction l as [|g l IH]; [reflexivity|]. cbn [map_res map]. destruct (H g (or_introl eq_refl)) as [out E].
    destruct (calc g o) as [g' r] eqn:Ec. cbn [snd] in E. subst r. cbn [bind fst]. rewrite IH by (intros; apply H; right; assumption). reflexivity.
Qed.

(** The first failing record ends the run: serially the earlier objects keep their
    scores and the later ones are untouched. *)
Theorem C78_batch_failure : forall l1 g l2 o e,
  (forall g, In g l1 -> exists out, snd (calc g o) = Ok out) -> snd (calc g o) = Err e ->
  run (l1 ++ g :: l2) false o = (map (fun g => fst (calc g o)) l1 ++ fst (calc g o) :: l2, Err e) /\
  run (l1 ++ g :: l2) true o = (l1 ++ g :: l2, Err e).
Proof.
  intros l1 g l2 o e H He. unfold run, batch_run, batch_parallel. fold calc. split.
  - induction l1 as [|g1 l1 IH]; cbn [app map batch_serial]; fold calc.
    + destruct (calc g o) as [g' r]. cbn [snd] in He. subst r. reflexivity.
    + destruct (H g1 (or_introl eq_refl)) as [out E]. destruct (calc g1 o) as [g' r] eqn:Ec. cbn [snd] in E. subst r.
      rewrite IH by (intros; apply H; right; assumption). reflexivity.
  - f_equal. induction l1 as [|g1 l1 IH]; cbn [app map_res].
    + destruct (calc g o) as [g' r]. cbn [snd] in He. subst r. reflexivity.
    + destruct (H g1 (or_introl eq_refl)) as [out E]. destruct (calc g1 o) as [g' r] eqn:Ec. cbn [snd] in E. subst r. cbn [bind].
      rewrite IH by (intros; apply H; right; assumption). reflexivity.
Qed.
End C78.

(** One scorable record before one that is too short: the first is scored, the run
    fails.  In parallel nothing is scored. *)
Example C78_instance : let id := fun x : signal => Ok x in
  let o := mkgopts (Some (1/4)) (Some (1/2)) false false false true false in
  let g1 := mkgof [(0, 1); (1, 2)] [(0, 1); (1, 2)] (repeat NaN 10) in
  let g2 := mkgof [(0, 1)] [(0, 1)] (repeat NaN 10) in
  let run := batch_run (fun _ => 0) id (fun _ => id) (fun _ _ => id) id (fun _ _ _ => Err ValueError) (fun _ => Err ValueError) (fun x => x) in
  snd (run [g1; g2] false o) = Err IndexError /\ map (fun g => nth 9 (g_scores g) NaN) (fst (run [g1; g2] false o)) = [Fin (1/10); NaN] /\
  fst (run [g1; g2] true o) = [g1; g2].
Proof.
  intros id o g1 g2 run.
  set (calc := calc_scores (fun _ => 0) id (fun _ => id) (fun _ _ => id) id (fun _ _ _ => Err ValueError) (fun _ => Err ValueError) (fun x => x)).
  assert (D : d_10 id (g_meas g1) (g_simu g1) (Some (1/4)) (Some (1/2)) false = Ok (Fin (1/10))).
  { apply C76_identical_cross_correlation; [cbn; lia|lra| |]; unfold step_of, sq; cbn; lra. }
  assert (C1 : calc g1 o = (mkgof (g_meas g1) (g_simu g1) (repeat NaN 9 ++ [Fin (1/10)]), Ok [Fin (1/10)])).
  { unfold calc, calc_scores. rewrite first_step_ok by (cbn; lia). cbn [o o_fmax o_fmin o_arias o_rms o_spectra o_cross o_baseline block]. rewrite (proj2 (Rleb_false (1/2) (1/4))) by lra. rewrite D. reflexivity. }
  assert (C2 : calc g2 o = (g2, Err IndexError)) by reflexivity.
  destruct (C78_batch_failure (fun _ => 0) id (fun _ => id) (fun _ _ => id) id (fun _ _ _ => Err ValueError) (fun _ => Err ValueError) (fun x => x) [g1] g2 [] o IndexError) as [H1 H2].
  - intros g [<-|[]]. fold calc. rewrite C1. eexists; reflexivity.
  - reflexivity.
  - fold calc in H1, H2. cbn [app map] in H1, H2. rewrite C1, C2 in H1. unfold run. rewrite H1, H2. split; [reflexivity|]. split; reflexivity.
Qed.
