(** C26, continued: identity, superposition, complex transfer functions, the frequency
    at which a harmonic is looked up, and the linear site response. *)
From Coq Require Import Reals List Bool ZArith Lia Lra.
From Coquelicot Require Import Complex.
From Coq Require Import List.
From Verif Require Import Base M_generic M_profile M_vs_profile P_vs_profile M_motion P_motion M_interp P_interp M_dft P_dft M_signal M_linear P_linear Prop_linear M_simlin P_simlin P_eqlin M_amplify P_unwrap Prop_unwrap P_amplify Prop_amplify.
Import ListNotations.
Open Scope R_scope.

(** ** Amplification always succeeds on a covered table *)
Theorem C26_amplifies s f a taper amp ph :
  polar_of f a amp ph -> (2 <= length s)%nat -> step_of s <> 0 -> f <> [] ->
  (last f 0 <> 0 \/ exists g, In g f /\ fmax_of s <= g) ->
  exists y, amplify_motion s f a taper true false = Ok (Some y).
Proof.
  intros HP Hn Hs Hf HL. destruct (amplify_motion s f a taper true false) as [[y|]|e] eqn:E; [eauto| |]; exfalso.
  - apply C26_not_finite in E. destruct E as (amp' & ph' & HP' & [[H _]|(_ & _ & _ & Ht & HC & H0)]); [discriminate|].
    destruct (polar_lengths _ _ _ _ HP') as [L1 L2]. pose proof (tab_fst f amp' ph' L1 L2) as EF. set (tab := combine f (combine amp' ph')) in *.
    destruct HL as [HL|(g & Hg & HL)].
    + apply HL. rewrite <- EF, <- H0. clear. induction tab as [|q [|q' t] IH]; [reflexivity|reflexivity|]. cbn [map last] in *. exact IH.
    + rewrite <- EF in Hg. apply in_map_iff in Hg. destruct Hg as (q & <- & Hq). specialize (HC q Hq). lra.
  - apply C26_errors in E. apply polar_ok in HP. destruct E as [[-> _]|[[Hm _]|(_ & _ & [(H & _)|[(_ & H & _)|[(_ & _ & H & _)|(_ & _ & _ & H & _)]]])]]; try congruence; try lia.
    + discriminate.
    + apply polar_ok in HP. destruct a as [z|x p|]; cbn [polar_of mismatched] in *.
      * destruct HP as [HP _]. congruence.
      * destruct HP as (-> & -> & H1 & H2). destruct Hm; congruence.
      * contradiction.
Qed.

(** ** Constant transfer functions *)
Lemma ival_const pts c x : pts <> [] -> (forall q, In q pts -> snd q = c) -> ival pts x = c.
Proof.
  intros Hn Hc. unfold ival, interp1. destruct pts as [|[x0 y0] rest]; [congruence|].
  assert (E0 : y0 = c) by exact (Hc (x0, y0) (or_introl eq_refl)). subst y0. destruct (Rltb x x0); [reflexivity|].
  assert (HR : forall q, In q rest -> snd q = c) by (intros q Hq; apply Hc; right; exact Hq). clear Hn Hc. revert x0.
  induction rest as [|[x1 y1] rest IH]; intros x0; cbn [interp_from]; [reflexivity|].
  assert (E1 : y1 = c) by exact (HR (x1, y1) (or_introl eq_refl)). subst y1.
  destruct (Rltb x x1) eqn:E; [destruct (Reqb x x0); [reflexivity | unfold Rdiv; ring]|]. apply IH. intros q Hq. apply HR. right. exact Hq.
Qed.
Lemma combine_in_amp (f amp ph : list R) q : In q (combine f (combine amp ph)) -> In (fst (snd q)) amp /\ In (snd (snd q)) ph.
Proof. destruct q as [x [a p]]. intros H. apply in_combine_r in H. cbn. split; [eapply in_combine_l | eapply in_combine_r]; eauto. Qed.

Lemma last_In {A} (l : list A) d : l <> [] -> In (last l d) l.
Proof. intros H. destruct l as [|x l] using rev_ind; [congruence|]. rewrite last_last. apply in_or_app. right. left. reflexivity. Qed.
Lemma Cre_R c : RtoC (Re (RtoC c)) = RtoC c.
Proof. reflexivity. Qed.
Lemma factor_const n df tab c : tab <> [] -> (forall q, In q tab -> snd q = (c, 0)) -> forall m, factor n df tab m = RtoC c.
Proof.
  intros Ht Hc m. assert (E : forall f, tf_at tab f = RtoC c).
  { intros f. unfold tf_at. rewrite (ival_const (ampl tab) c), (ival_const (phas tab) 0), cis_0.
    - ring.
    - unfold phas. destruct tab; [congruence | discriminate].
    - intros q Hq. apply in_map_iff in Hq. destruct Hq as (q' & <- & Hq'). cbn. rewrite (Hc q' Hq'). reflexivity.
    - unfold ampl. destruct tab; [congruence | discriminate].
    - intros q Hq. apply in_map_iff in Hq. destruct Hq as (q' & <- & Hq'). cbn. rewrite (Hc q' Hq'). reflexivity. }
  unfold factor. rewrite !E. destruct (Nat.eqb m 0); [reflexivity|]. destruct (Nat.eqb (2 * m) n); [reflexivity|]. destruct (Nat.ltb (2 * m) n); [reflexivity|]. apply Cconj_R.
Qed.

(** A transfer function equal to one everywhere leaves the record alone. *)
Theorem C26_identity s f a amp ph deconv y : polar_of f a amp ph ->
  (forall x, In x amp -> x = 1) -> (forall x, In x ph -> x = 0) ->
  amplify_motion s f a false true deconv = Ok (Some y) -> y = s.
Proof.
  intros HP H1 H0 E. apply C26_result in E. destruct E as (s' & tab' & (amp' & ph' & HP' & HPr) & Ly & Ty & x & HX & HS).
  assert (amp' = amp /\ ph' = ph).
  { apply polar_ok in HP. apply polar_ok in HP'. rewrite HP in HP'. injection HP'. auto. }
  destruct H as [-> ->]. cbn [transformed] in HX. subst x. destruct (prepared_ok _ _ _ _ _ HPr) as (_ & _ & Ht').
  destruct HPr as (_ & _ & Ht & -> & HC). set (tab := combine f (combine amp ph)) in *.
  assert (HT : forall q, In q tab -> snd q = (1, 0)).
  { intros q Hq. destruct (combine_in_amp _ _ _ _ Hq) as [A B]. destruct q as [u [v w]]. cbn in *. f_equal; auto. }
  assert (HT' : forall q, In q tab' -> snd q = (1, 0)).
  { destruct HC as (pre & post & -> & HC). destruct (last tab (0, (0, 0))) as [f0 [a0 p0]] eqn:EL.
    assert (HLs : In (f0, (a0, p0)) tab) by (rewrite <- EL; apply last_In, Ht).
    pose proof (HT _ HLs) as E0. cbn in E0. injection E0 as -> ->. destruct HC as [HC1 HC2].
    intros q Hq. apply in_app_iff in Hq. destruct Hq as [Hq|Hq].
    - destruct HC2 as [[_ ->]|[_ ->]]; [destruct Hq|]. destruct Hq as [<-|[]]. reflexivity.
    - apply in_app_iff in Hq. destruct Hq as [Hq|Hq]; [apply HT, Hq|]. destruct HC1 as [[_ ->]|[_ [_ ->]]]; [destruct Hq|]. destruct Hq as [<-|[]]. cbn. f_equal. unfold Rdiv. ring. }
  apply signal_ext; [exact Ty|]. apply dft_inj. apply list_eq_nth; [rewrite !dft_length, !map_length, !vals_length; exact Ly|].
  intros m Hm. rewrite dft_length, map_length, vals_length, Ly in Hm. destruct (HS m Hm) as [_ ->]. rewrite (factor_const _ _ _ 1 Ht' HT').
  destruct deconv; [field; intros Q; injection Q; lra | ring].
Qed.

(** ** Superposition *)
Definition mix (a b : R) (x y : list R) : list R := map (fun q => a * fst q + b * snd q) (combine x y).
Lemma mix_length a b x y : length x = length y -> length (mix a b x y) = length x.
Proof. intros H. unfold mix. rewrite map_length, combine_length. lia. Qed.
Lemma mix_nth a b x y k : length x = length y -> nth k (mix a b x y) 0 = a * nth k x 0 + b * nth k y 0.
Proof.
  unfold mix. revert y k. induction x as [|u x IH]; intros [|v y] [|k] H; try discriminate; cbn [combine map nth fst snd]; try lra. apply IH. cbn in H. lia.
Qed.
Lemma dft_mix a b x y m : length x = length y -> (m < length x)%nat ->
  nth m (dft (map RtoC (mix a b x y))) (RtoC 0) = Cplus (Cmult (RtoC a) (nth m (dft (map RtoC x)) (RtoC 0))) (Cmult (RtoC b) (nth m (dft (map RtoC y)) (RtoC 0))).
Proof.
  intros L Hm. assert (E : map RtoC (mix a b x y) = map (fun p => Cplus (Cmult (RtoC a) (fst p)) (Cmult (RtoC b) (snd p))) (combine (map RtoC x) (map RtoC y))).
  { apply list_eq_nth; [rewrite !map_length, combine_length, mix_length, !map_length by exact L; lia|]. intros k Hk. rewrite map_length, mix_length in Hk by exact L.
    rewrite nth_RtoC, mix_nth by exact L. rewrite (map_nth' (fun p : C * C => Cplus (Cmult (RtoC a) (fst p)) (Cmult (RtoC b) (snd p))) _ _ (RtoC 0, RtoC 0)) by (rewrite combine_length, !map_length; lia).
    rewrite combine_nth by (rewrite !map_length; exact L). cbn [fst snd]. rewrite !nth_RtoC, RtoC_plus, !RtoC_mult. reflexivity. }
  rewrite E, dft_linear by (rewrite !map_length; exact L).
  rewrite (map_nth' (fun p : C * C => Cplus (Cmult (RtoC a) (fst p)) (Cmult (RtoC b) (snd p))) _ _ (RtoC 0, RtoC 0)) by (rewrite combine_length, !dft_length, !map_length; lia).
  rewrite combine_nth by (rewrite !dft_length, !map_length; exact L). reflexivity.
Qed.
Lemma taper_mix a b (x y : list R) w : length x = length y -> forall x' y', taper_Tukey (T1 x) w = Ok x' -> taper_Tukey (T1 y) w = Ok y' -> taper_Tukey (T1 (mix a b x y)) w = Ok (mix a b x' y').
Proof.
  intros L x' y' E1 E2. cbn [taper_Tukey] in *. rewrite mix_length by exact L. rewrite <- L in E2. injection E1 as <-. injection E2 as <-. f_equal.
  generalize (tukey (length x) (w / 2)). intros l. unfold mix. revert y L l. induction x as [|u x IH]; intros [|v y] L [|c l]; try discriminate; cbn [combine map fst snd]; try reflexivity.
  f_equal; [ring|]. apply IH. cbn in L. lia.
Qed.

Theorem C26_superposition s1 s2 f z taper deconv y1 y2 a b :
  times s1 = times s2 ->
  amplify_motion s1 f z taper true deconv = Ok (Some y1) -> amplify_motion s2 f z taper true deconv = Ok (Some y2) ->
  amplify_motion (with_vals s1 (mix a b (vals s1) (vals s2))) f z taper true deconv = Ok (Some (with_vals s1 (mix a b (vals y1) (vals y2)))).
Proof.
  intros HT E1 E2. apply C26_result in E1. apply C26_result in E2.
  destruct E1 as (s1' & t1 & (amp & ph & HP & HPr1) & Ly1 & Ty1 & x1 & HX1 & HS1). destruct E2 as (s2' & t2 & (amp2 & ph2 & HP2 & HPr2) & Ly2 & Ty2 & x2 & HX2 & HS2).
  assert (amp2 = amp /\ ph2 = ph) as [-> ->] by (apply polar_ok in HP; apply polar_ok in HP2; rewrite HP in HP2; injection HP2; auto).
  destruct (same_grid _ _ HT) as (Ln & Es & Ed & Em).
  assert (E0 : s1' = s1 /\ s2' = s2 /\ t2 = t1).
  { pose proof HPr1 as G1. destruct G1 as (_ & _ & Htab & -> & G1). pose proof HPr2 as G2. destruct G2 as (_ & _ & _ & -> & G2). split; [reflexivity|]. split; [reflexivity|].
    rewrite <- Ed, <- Em in G2. destruct (extrapolate_spec (df_of s1) (fmax_of s1) (combine f (combine amp ph)) Htab) as (r & _ & Hr & _).
    apply Hr in G1. apply Hr in G2. congruence. }
  destruct E0 as (-> & -> & ->).
  assert (Lv : length (vals s1) = length (vals s2)) by (rewrite !vals_length; exact Ln).
  assert (Lm : length (mix a b (vals s1) (vals s2)) = length s1) by (rewrite mix_length by exact Lv; apply vals_length).
  assert (Ly : length (vals y1) = length (vals y2)) by (rewrite !vals_length; lia).
  assert (Lmy : length (mix a b (vals y1) (vals y2)) = length s1) by (rewrite mix_length by exact Ly; rewrite vals_length; exact Ly1).
  set (s := with_vals s1 (mix a b (vals s1) (vals s2))). assert (Ts : times s = times s1) by (apply times_with_vals; exact Lm).
  apply C26_result. exists s, t1. split.
  { exists amp, ph. split; [exact HP|]. exact (prepared_again _ _ _ _ _ s HPr1 Ts). }
  destruct (same_grid _ _ Ts) as (Ls & _ & Eds & _).
  split; [rewrite with_vals_length by exact Lmy; lia|]. split; [rewrite times_with_vals by exact Lmy; symmetry; exact Ts|].
  exists (mix a b x1 x2). pose proof (transformed_length _ _ _ HX1) as Lx1. pose proof (transformed_length _ _ _ HX2) as Lx2. split.
  { destruct taper; cbn [transformed] in *.
    - unfold s. rewrite vals_with_vals by exact Lm. apply taper_mix; assumption.
    - subst x1 x2. unfold s. rewrite vals_with_vals by exact Lm. reflexivity. }
  rewrite Ls, Eds. intros m Hm. cbv zeta. rewrite vals_with_vals by exact Lmy. rewrite dft_mix by (rewrite ?vals_length; lia). rewrite dft_mix by lia.
  destruct (HS1 m Hm) as [Z1 V1]. destruct (HS2 m ltac:(lia)) as [Z2 V2]. rewrite <- Ln, <- Ed in Z2, V2. split; [exact Z1|]. rewrite V1, V2.
  destruct deconv; [field; apply Z1; reflexivity | ring].
Qed.

(** ** Complex transfer functions *)
Lemma carg_spec z : Cmult (RtoC (Cmod z)) (cis (carg z)) = z.
Proof.
  unfold carg. destruct (Reqb_spec (Cmod z) 0) as [E|E].
  - rewrite E, Cmult_0_l. symmetry. apply Cmod_eq_0. exact E.
  - assert (P : 0 < Cmod z) by (pose proof (Cmod_ge_0 z); lra). assert (Q : Cmod z ^ 2 = Re z ^ 2 + Im z ^ 2).
    { unfold Cmod. rewrite pow2_sqrt; [reflexivity|]. pose proof (pow2_ge_0 (fst z)). pose proof (pow2_ge_0 (snd z)). lra. }
    assert (B : -1 <= Re z / Cmod z <= 1).
    { assert (Re z ^ 2 <= Cmod z ^ 2) by (pose proof (pow2_ge_0 (Im z)); lra).
      assert (- Cmod z <= Re z <= Cmod z) by (split; nra).
      split; apply Rmult_le_reg_r with (Cmod z); try exact P; unfold Rdiv; rewrite Rmult_assoc, Rinv_l by lra; lra. }
    assert (S : sin (acos (Re z / Cmod z)) = Rabs (Im z) / Cmod z).
    { rewrite sin_acos by exact B. assert (E1 : 1 - (Re z / Cmod z)² = (Rabs (Im z) / Cmod z) * (Rabs (Im z) / Cmod z)).
      { unfold Rsqr. assert (A : Rabs (Im z) * Rabs (Im z) = Im z * Im z) by (rewrite <- Rabs_mult; apply Rabs_pos_eq; nra).
        replace (Rabs (Im z) / Cmod z * (Rabs (Im z) / Cmod z)) with (Rabs (Im z) * Rabs (Im z) / (Cmod z * Cmod z)) by (field; lra). rewrite A.
        apply Rmult_eq_reg_r with (Cmod z * Cmod z); [|nra]. field_simplify; [|lra|lra]. nra. }
      rewrite E1. apply sqrt_square. apply Rmult_le_pos; [apply Rabs_pos | left; apply Rinv_0_lt_compat; exact P]. }
    assert (K : cos (acos (Re z / Cmod z)) = Re z / Cmod z) by (apply cos_acos; exact B).
    destruct z as [x y]. unfold cis, Cmult, RtoC. cbn [fst snd Re Im] in *. apply injective_projections; cbn [fst snd].
    + destruct (Rltb y 0).
      * replace (-1 * acos (x / Cmod (x, y))) with (- acos (x / Cmod (x, y))) by ring. rewrite cos_neg, K. field. lra.
      * rewrite Rmult_1_l, K. field. lra.
    + destruct (Rltb_spec y 0) as [C|C].
      * replace (-1 * acos (x / Cmod (x, y))) with (- acos (x / Cmod (x, y))) by ring. rewrite sin_neg, S, Rabs_left by lra. field. lra.
      * rewrite Rmult_1_l, S, Rabs_pos_eq by lra. field. lra.
Qed.
Lemma cis_same a b : same_angle a b -> cis a = cis b.
Proof.
  intros [z ->]. rewrite cis_plus. assert (E : cis (2 * PI * IZR z) = RtoC 1); [|rewrite E; ring].
  destruct (Z.le_gt_cases 0 z) as [H|H].
  - replace (IZR z) with (INR (Z.to_nat z)) by (rewrite INR_IZR_INZ, Z2Nat.id by lia; reflexivity). apply cis_2PI.
  - replace (2 * PI * IZR z) with (- (2 * PI * INR (Z.to_nat (- z)))) by (rewrite INR_IZR_INZ, Z2Nat.id by lia; rewrite opp_IZR; ring).
    rewrite cis_neg, cis_2PI. apply Cconj_R.
Qed.

(** A complex array is interpolated through its own values at the given frequencies, for
    increasing frequencies and a phase that is wrapped in single steps. *)
Definition increasing_list (f : list R) : Prop := forall k, (S k < length f)%nat -> nth k f 0 < nth (S k) f 0.
Theorem C26_complex_values f z : length z = length f -> increasing_list f ->
  (forall a b, ~ slow_climb (map carg z) a b) -> (forall b, ~ opening_climb (map carg z) b) ->
  forall amp ph, polar_of f (TFComplex z) amp ph ->
  forall j, (j < length f)%nat -> tf_at (combine f (combine amp ph)) (nth j f 0) = nth j z (RtoC 0).
Proof.
  intros L HI H1 H2 amp ph HP j Hj. destruct (polar_lengths _ _ _ _ HP) as [La Lp]. cbn [polar_of] in HP. destruct HP as (_ & Ea & Ep).
  set (tab := combine f (combine amp ph)). assert (Lt : length tab = length f) by (unfold tab; rewrite !combine_length; lia).
  assert (NT : forall k, (k < length f)%nat -> nth k tab (0, (0, 0)) = (nth k f 0, (nth k amp 0, nth k ph 0))).
  { intros k Hk. unfold tab. rewrite combine_nth by (rewrite combine_length; lia). rewrite combine_nth by lia. reflexivity. }
  assert (AT : forall (g : R * (R * R) -> R) k, (k < length f)%nat -> nth k (map (fun q => (fst q, g q)) tab) (0, 0) = (nth k f 0, g (nth k f 0, (nth k amp 0, nth k ph 0)))).
  { intros g k Hk. rewrite (map_nth' (fun q : R * (R * R) => (fst q, g q)) _ _ (0, (0, 0))) by lia. rewrite NT by exact Hk. reflexivity. }
  assert (IV : forall g : R * (R * R) -> R, ival (map (fun q => (fst q, g q)) tab) (nth j f 0) = g (nth j f 0, (nth j amp 0, nth j ph 0))).
  { intros g. set (pts := map (fun q => (fst q, g q)) tab). assert (Lpt : length pts = length f) by (unfold pts; rewrite map_length; exact Lt).
    assert (I : incr pts).
    { intros k Hk. unfold pts in *. rewrite !AT by lia. cbn [fst]. apply HI. lia. }
    assert (N : pts <> []) by (intros E; rewrite E in Lpt; cbn in Lpt; lia).
    pose proof (ival_pl pts (nth j f 0) I N) as P. assert (EN : nth j pts (0, 0) = (nth j f 0, g (nth j f 0, (nth j amp 0, nth j ph 0)))) by (apply AT; exact Hj).
    pose proof (pl_at_node pts j (ival pts (nth j f 0)) I ltac:(lia)) as Q. rewrite EN in Q. apply Q. exact P. }
  unfold tf_at, ampl, phas. rewrite (IV (fun q => fst (snd q))), (IV (fun q => snd (snd q))). cbn [fst snd].
  assert (Em : nth j amp 0 = Cmod (nth j z (RtoC 0))) by (rewrite Ea; apply (map_nth' Cmod); lia).
  assert (Ec : nth j (map carg z) 0 = carg (nth j z (RtoC 0))) by (apply (map_nth' carg); lia).
  destruct (C27_no_climb (map carg z) PI H1 H2) as (_ & _ & SA). specialize (SA j ltac:(rewrite map_length; lia)). rewrite Ec in SA.
  rewrite Em, Ep, (cis_same _ _ SA). apply carg_spec.
Qed.

(** ** The frequency of a harmonic *)

(** Harmonic [m] of a record has the frequency [m df], but it is multiplied by the value
    of the transfer function at [(m + 1) df]: "the spectrum of the result is the spectrum
    of the record times the transfer function" does not hold. *)
Theorem C26_harmonic_refuted : exists s f amp ph y m,
  increasing_list f /\ (forall g, df_of s <= g <= fmax_of s -> nth 0 f 0 <= g <= last f 0) /\ (0 < m < length s)%nat /\
  amplify_motion s f (TFPolar amp ph) false true false = Ok (Some y) /\
  nth m (dft (map RtoC (vals y))) (RtoC 0) <> Cmult (nth m (dft (map RtoC (vals s))) (RtoC 0)) (tf_at (combine f (combine amp ph)) (INR m * df_of s)).
Proof.
  set (s := [(0, 1); (1, -1)]). set (f := [1 / 2; 1]). set (amp := [5; 7]). set (ph := [0; 0]).
  assert (Es : step_of s = 1) by (unfold step_of; cbn; ring). assert (Ed : df_of s = 1 / 2) by (unfold df_of; rewrite Es; cbn; field).
  assert (Em : fmax_of s = 1) by (unfold fmax_of; rewrite Ed; cbn; field).
  assert (HP : polar_of f (TFPolar amp ph) amp ph) by (cbn; auto).
  destruct (C26_amplifies s f (TFPolar amp ph) false amp ph HP) as [y Ey]; [cbn; lia | rewrite Es; lra | discriminate | left; cbn; lra |].
  exists s, f, amp, ph, y, 1%nat. split; [intros k Hk; cbn in Hk; replace k with O by lia; cbn; lra|].
  split; [intros g; rewrite Ed, Em; cbn; lra|]. split; [cbn; lia|]. split; [exact Ey|].
  apply C26_result in Ey. destruct Ey as (s' & tab' & (amp' & ph' & HP' & HPr) & _ & _ & x & HX & HS). cbn [polar_of] in HP'. destruct HP' as (-> & -> & _). cbn [transformed] in HX. subst x.
  destruct HPr as (_ & _ & Ht & -> & HC). set (tab := combine f (combine amp ph)) in *. rewrite Ed, Em in HC.
  assert (ET : tab' = tab).
  { destruct HC as (pre & post & -> & HC). cbn [tab f amp ph combine last] in HC. destruct HC as [HC1 HC2].
    assert (post = []) by (destruct HC1 as [[_ ->]|[HC1 _]]; [reflexivity|]; specialize (HC1 (1, (7, 0)) (or_intror (or_introl eq_refl))); cbn in HC1; lra). subst post.
    assert (pre = []) by (destruct HC2 as [[_ ->]|[HC2 _]]; [reflexivity|]; specialize (HC2 (1 / 2, (5, 0)) (or_introl eq_refl)); cbn in HC2; lra). subst pre.
    rewrite app_nil_r. reflexivity. }
  subst tab'. destruct (HS 1%nat ltac:(cbn; lia)) as [_ V]. rewrite V. clear V HS HC.
  assert (IT : incr (ampl tab)) by (intros k Hk; cbn in Hk; replace k with O by lia; cbn; lra).
  assert (IP : incr (phas tab)) by (intros k Hk; cbn in Hk; replace k with O by lia; cbn; lra).
  assert (T1 : tf_at tab (1 / 2) = RtoC 5).
  { unfold tf_at. rewrite (pl_at_node (ampl tab) 0 (ival (ampl tab) (1 / 2)) IT ltac:(cbn; lia) (ival_pl (ampl tab) (1 / 2) IT ltac:(discriminate))).
    rewrite (pl_at_node (phas tab) 0 (ival (phas tab) (1 / 2)) IP ltac:(cbn; lia) (ival_pl (phas tab) (1 / 2) IP ltac:(discriminate))). cbn [ampl phas tab f amp ph combine map nth fst snd]. rewrite cis_0. ring. }
  assert (T2 : tf_at tab 1 = RtoC 7).
  { unfold tf_at. rewrite (pl_at_node (ampl tab) 1 (ival (ampl tab) 1) IT ltac:(cbn; lia) (ival_pl (ampl tab) 1 IT ltac:(discriminate))).
    rewrite (pl_at_node (phas tab) 1 (ival (phas tab) 1) IP ltac:(cbn; lia) (ival_pl (phas tab) 1 IP ltac:(discriminate))). cbn [ampl phas tab f amp ph combine map nth fst snd]. rewrite cis_0. ring. }
  assert (F : factor (length s) (df_of s) tab 1 = RtoC 7).
  { unfold factor. cbn [length s Nat.eqb Nat.mul Nat.add]. rewrite Ed. replace (INR (1 + 1) * (1 / 2)) with 1 by (cbn; field). change (INR 2 * (1 / 2)) with (INR 2 * (1 / 2)). replace (INR 2 * (1 / 2)) with 1 by (cbn; field). rewrite T2. reflexivity. }
  rewrite F. replace (INR 1 * df_of s) with (1 / 2) by (rewrite Ed; cbn; ring). rewrite T1.
  assert (A : nth 1 (dft (map RtoC (vals s))) (RtoC 0) = RtoC 2).
  { rewrite dft_nth by (cbn; lia). cbn [s vals map length snd csum nth]. unfold angle. cbn [INR].
    replace (- (2 * PI * (1 * 0) / (1 + 1))) with 0 by field. replace (- (2 * PI * (1 * 1) / (1 + 1))) with (- PI) by field.
    rewrite cis_0, cis_neg. unfold cis. rewrite cos_PI, sin_PI. unfold Cconj, Cmult, Cplus, RtoC. cbn [fst snd]. f_equal; ring. }
  rewrite A. rewrite <- !RtoC_mult. intros Q. injection Q. lra.
Qed.

(** ** linear_site_resp *)
Lemma df_pos s : (2 <= length s)%nat -> 0 < step_of s -> 0 < df_of s /\ df_of s < fmax_of s.
Proof.
  intros Hn Hs. assert (D : 0 < df_of s).
  { unfold df_of. assert (2 <= INR (length s)) by (apply (le_INR 2); exact Hn). apply Rmult_lt_0_compat; [|apply Rinv_0_lt_compat; lra]. apply Rmult_lt_0_compat; [lra | apply Rinv_0_lt_compat; exact Hs]. }
  split; [exact D|]. unfold fmax_of. destruct (half_len_bounds _ Hn) as [Hh _]. assert (2 <= INR (half_len (length s))) by (apply (le_INR 2); exact Hh). nra.
Qed.

Lemma grid_size s : (2 <= length s)%nat -> 0 < step_of s ->
  2 * (df_of s * (105 / 100)) <= fmax_of s * (105 / 100).
Proof.
  intros Hn Hs. destruct (df_pos s Hn Hs) as [D _]. unfold fmax_of. destruct (half_len_bounds _ Hn) as [Hh _].
  assert (2 <= INR (half_len (length s))) by (apply (le_INR 2); exact Hh). nra.
Qed.

(** The transfer function that is used, and its use. *)
Theorem C26_site_response t s e deconv : table_wf t -> (2 <= length s)%nat -> 0 < step_of s ->
  ((exists out, linear_site_resp t s (Some e) deconv = Ok out) <-> valid_table t) /\
  (forall y f z, linear_site_resp t s (Some e) deconv = Ok (y, (f, z)) ->
    let h := half_len (length s) in
    length f = h /\ length z = h /\
    (forall i, (i < h)%nat -> nth i f 0 = INR (S i) * (df_of s * (105 / 100))) /\
    (forall i, (i < h)%nat -> nth i z (RtoC 0) = (if e then tf_ro else tf_bh) (2 * PI * nth i f 0) (lays_of t)) /\
    amplify_motion s f (TFComplex z) false true deconv = Ok y).
Proof.
  intros Wf Hn Hs. destruct (df_pos s Hn Hs) as [D _]. destruct (half_len_bounds _ Hn) as [Hh _].
  assert (R0 : 0 < df_of s * (105 / 100)) by lra.
  assert (EG : get_freq_interval s = Ok (grid_of s)).
  { rewrite get_freq_interval_eq. destruct (Nat.leb_spec (length s) 1); [lia|]. destruct (Reqb_spec (step_of s) 0); [lra | reflexivity]. }
  pose proof (C23_accepts_iff t (df_of s * (105 / 100)) (fmax_of s * (105 / 100)) Wf R0) as AC.
  assert (AMP : forall r, linear_tf t (df_of s * (105 / 100)) (fmax_of s * (105 / 100)) = Ok r ->
    let z := if e then lr_TF_ro r else lr_TF_bh r in let h := half_len (length s) in
    length (lr_freq r) = h /\ length z = h /\ (forall i, (i < h)%nat -> nth i (lr_freq r) 0 = INR (S i) * (df_of s * (105 / 100))) /\
    (forall i, (i < h)%nat -> nth i z (RtoC 0) = (if e then tf_ro else tf_bh) (2 * PI * nth i (lr_freq r) 0) (lays_of t))).
  { intros r Er z h. destruct (C23_result t _ _ r Wf R0 Er) as (_ & N2 & NB & GR & (L1 & _ & L3) & GV & _).
    assert (EN : length (lr_freq r) = h).
    { set (n := length (lr_freq r)) in *. unfold fmax_of in NB. fold h in NB. assert (A : INR n <= INR h < INR (S n)).
      { split; [apply Rmult_le_reg_r with (df_of s * (105 / 100)); lra | apply Rmult_lt_reg_r with (df_of s * (105 / 100)); lra]. }
      destruct A as [A1 A2]. apply INR_le in A1. apply INR_lt in A2. lia. }
    split; [exact EN|]. split; [unfold z; destruct e; lia|]. rewrite EN in GR, GV. split; [exact GR|].
    intros i Hi. rewrite GR by exact Hi. destruct (GV i Hi) as (V1 & _ & V3). unfold z. destruct e; assumption. }
  split.
  - split.
    + intros [out E]. unfold linear_site_resp in E. rewrite EG in E. cbn [bind] in E. change (fg_df (grid_of s)) with (df_of s) in E. change (fg_fmax (grid_of s)) with (fmax_of s) in E.
      destruct (linear_tf t (df_of s * (105 / 100)) (fmax_of s * (105 / 100))) as [r|] eqn:Er; [|discriminate]. apply (proj1 AC). eauto.
    + intros V. destruct (proj2 AC (conj V (grid_size s Hn Hs))) as [r Er].
      destruct (AMP r Er) as (Lf & Lz & Gf & _). set (z := if e then lr_TF_ro r else lr_TF_bh r) in *.
      unfold linear_site_resp. rewrite EG. cbn [bind]. change (fg_df (grid_of s)) with (df_of s). change (fg_fmax (grid_of s)) with (fmax_of s). rewrite Er. cbn [bind]. fold z.
      destruct (amplify_motion s (lr_freq r) (TFComplex z) false true deconv) as [y|e'] eqn:E; [eexists; reflexivity|]. exfalso. apply C26_errors in E.
      destruct E as [[E _]|[[E _]|(_ & _ & [(E & _)|[(_ & E & _)|[(_ & _ & E & _)|(_ & _ & _ & E & _)]]])]]; try discriminate; try lia; try lra.
      * cbn [mismatched] in E. lia.
      * rewrite E in Lf. cbn in Lf. lia.
  - intros y f z E. unfold linear_site_resp in E. rewrite EG in E. cbn [bind] in E. change (fg_df (grid_of s)) with (df_of s) in E. change (fg_fmax (grid_of s)) with (fmax_of s) in E.
    destruct (linear_tf t (df_of s * (105 / 100)) (fmax_of s * (105 / 100))) as [r|] eqn:Er; [|discriminate]. cbn [bind] in E.
    destruct (amplify_motion s (lr_freq r) (TFComplex (if e then lr_TF_ro r else lr_TF_bh r)) false true deconv) as [y'|] eqn:Ey; [|discriminate]. cbn [bind] in E. injection E as <- <- <-.
    destruct (AMP r eq_refl) as (Lf & Lz & Gf & Gz). auto.
Qed.

(** Which exception. *)
Theorem C26_site_response_errors t s b deconv : table_wf t ->
  ((length s <= 1)%nat -> linear_site_resp t s b deconv = Err ValueError) /\
  ((2 <= length s)%nat -> step_of s = 0 -> linear_site_resp t s b deconv = Err ZeroDivisionError) /\
  ((2 <= length s)%nat -> 0 < step_of s -> forall e, check_Vs_profile_format (as_pyobj t) = Err e -> linear_site_resp t s b deconv = Err e) /\
  ((2 <= length s)%nat -> 0 < step_of s -> valid_table t -> linear_site_resp t s None deconv = Err ValueError).
Proof.
  intros Wf. unfold linear_site_resp. rewrite get_freq_interval_eq. split; [|split; [|split]].
  - intros H. destruct (Nat.leb_spec (length s) 1); [reflexivity|lia].
  - intros Hn H. destruct (Nat.leb_spec (length s) 1); [lia|]. destruct (Reqb_spec (step_of s) 0); [reflexivity|congruence].
  - intros Hn H e E. destruct (Nat.leb_spec (length s) 1); [lia|]. destruct (Reqb_spec (step_of s) 0); [lra|]. cbn [bind].
    unfold linear_tf. rewrite E. reflexivity.
  - intros Hn H V. destruct (Nat.leb_spec (length s) 1); [lia|]. destruct (Reqb_spec (step_of s) 0); [lra|]. cbn [bind].
    destruct (df_pos s Hn H) as [D _]. assert (R0 : 0 < df_of s * (105 / 100)) by lra.
    destruct (proj2 (C23_accepts_iff t (df_of s * (105 / 100)) (fmax_of s * (105 / 100)) Wf R0) (conj V (grid_size s Hn H))) as [r Er].
    change (fg_df (grid_of s)) with (df_of s). change (fg_fmax (grid_of s)) with (fmax_of s). rewrite Er. reflexivity.
Qed.

Lemma dft_mean v : v <> [] -> nth 0 (dft (map RtoC v)) (RtoC 0) = RtoC (rsum v).
Proof.
  intros H. assert (L : (0 < length v)%nat) by (destruct v; [congruence | cbn; lia]).
  rewrite dft_nth by (rewrite map_length; exact L). rewrite map_length.
  rewrite (csum_ext _ _ (fun n => RtoC (nth n v 0))).
  2:{ intros k _. rewrite nth_RtoC. unfold angle. cbn [INR]. replace (- (2 * PI * (0 * INR k) / INR (length v))) with 0 by (unfold Rdiv; ring). rewrite cis_0. ring. }
  clear H L. assert (G : forall l, csum (length l) (fun n => RtoC (nth n l 0)) = RtoC (rsum l)); [|apply G].
  induction l as [|x l IH]; [reflexivity|]. cbn [length]. rewrite csum_S_l. cbn [nth]. rewrite IH, <- RtoC_plus. reflexivity.
Qed.

(** The response has the mean of the input: the first harmonic is left alone, because the
    transfer function starts above the first frequency of the record. *)
Theorem C26_site_response_mean t s e deconv y fz : table_wf t -> (2 <= length s)%nat -> 0 < step_of s ->
  linear_site_resp t s (Some e) deconv = Ok (Some y, fz) ->
  times y = times s /\ rsum (vals y) = rsum (vals s).
Proof.
  intros Wf Hn Hs E. destruct fz as [f z]. destruct (C26_site_response t s e deconv Wf Hn Hs) as [_ H]. destruct (H _ _ _ E) as (Lf & Lz & Gf & _ & EA). clear H E. cbv zeta in *.
  destruct (df_pos s Hn Hs) as [D DF]. destruct (half_len_bounds _ Hn) as [Hh _].
  apply C26_result in EA. destruct EA as (s' & tab' & (amp & ph & HP & HPr) & Ly & Ty & x & HX & HS). cbn [transformed] in HX. subst x.
  destruct (polar_lengths _ _ _ _ HP) as [La Lp]. destruct HPr as (_ & _ & Ht & -> & HC). split; [exact Ty|].
  set (tab := combine f (combine amp ph)) in *. assert (EF : map fst tab = f) by (apply tab_fst; assumption).
  assert (GT : forall q, In q tab -> df_of s < fst q).
  { intros q Hq. assert (I : In (fst q) f) by (rewrite <- EF; apply in_map, Hq). apply (In_nth _ _ 0) in I. destruct I as (i & Hi & <-). rewrite Gf by lia. rewrite S_INR. pose proof (pos_INR i). nra. }
  assert (EX : exists q, In q tab /\ fmax_of s <= fst q).
  { assert (I : In (nth (half_len (length s) - 1) f 0) f) by (apply nth_In; lia). rewrite <- EF in I at 2. apply in_map_iff in I. destruct I as (q & Eq & Hq).
    exists q. split; [exact Hq|]. rewrite Eq, Gf by lia. replace (S (half_len (length s) - 1)) with (half_len (length s)) by lia. unfold fmax_of. pose proof (pos_INR (half_len (length s))). nra. }
  assert (ET : tab' = (df_of s, (1, 0)) :: tab).
  { destruct HC as (pre & post & -> & HC). destruct (last tab (0, (0, 0))) as [f0 [a0 p0]]. destruct HC as [HC1 HC2].
    destruct HC1 as [[_ ->]|[HC1 _]]; [|destruct EX as (q & Hq & G); specialize (HC1 q Hq); lra]. rewrite app_nil_r in *.
    destruct HC2 as [[(q & Hq & G) _]|[_ ->]]; [specialize (GT q Hq); lra | reflexivity]. }
  assert (F : factor (length s) (df_of s) tab' 0 = RtoC 1).
  { unfold factor. cbn [Nat.eqb]. rewrite ET. destruct tab as [|[x1 [a1 p1]] tab0] eqn:Etab; [congruence|].
    assert (X1 : df_of s < x1) by (apply (GT (x1, (a1, p1))); left; reflexivity).
    unfold tf_at, ival, ampl, phas. cbn [map fst snd interp1 interp_from]. destruct (Rltb_spec (df_of s) (df_of s)); [lra|]. destruct (Rltb_spec (df_of s) x1); [|lra].
    destruct (Reqb_spec (df_of s) (df_of s)); [|congruence]. rewrite cis_0. f_equal. rewrite Cmult_1_r. reflexivity. }
  destruct (HS 0%nat ltac:(lia)) as [_ V]. rewrite F in V.
  assert (NV : forall u : signal, (2 <= length u)%nat -> vals u <> []) by (intros u Hu Q; assert (length (vals u) = O) by (rewrite Q; reflexivity); rewrite vals_length in *; lia).
  rewrite !dft_mean in V by (apply NV; lia). apply (f_equal Re) in V. destruct deconv.
  - replace (Cdiv (RtoC (rsum (vals s))) (RtoC 1)) with (RtoC (rsum (vals s))) in V by (field; intros Q; injection Q; lra). exact V.
  - rewrite Cmult_1_r in V. exact V.
Qed.

(** On bare rock (a profile of one row) the response is the input, whichever boundary. *)
Theorem C26_bare_rock t s e deconv : table_wf t -> valid_table t -> length (t_rows t) = 1%nat -> (2 <= length s)%nat -> 0 < step_of s ->
  exists fz, linear_site_resp t s (Some e) deconv = Ok (Some s, fz).
Proof.
  intros Wf V L1 Hn Hs. destruct (C26_site_response t s e deconv Wf Hn Hs) as [A B]. destruct (proj2 A V) as [[y [f z]] E]. exists (f, z).
  destruct (B _ _ _ E) as (Lf & Lz & Gf & Gz & EA). cbv zeta in *. rewrite E. do 2 f_equal. destruct (df_pos s Hn Hs) as [D DF]. destruct (half_len_bounds _ Hn) as [Hh _].
  assert (LL : exists l, lays_of t = [l]).
  { unfold lays_of. destruct (Nat.eqb (t_ncol t) 2).
    - rewrite L1. eexists. reflexivity.
    - destruct (t_rows t) as [|r [|r' rs]]; try discriminate. eexists. reflexivity. }
  destruct LL as [l LL].
  assert (Z1 : forall i, (i < half_len (length s))%nat -> nth i z (RtoC 0) = RtoC 1).
  { intros i Hi. rewrite Gz by exact Hi. rewrite LL. destruct e; unfold tf_ro, tf_bh, Emat; cbn [combine tl rev fold_left mid m00 m01 m10 m11].
    - replace (Cplus (RtoC 1) (RtoC 0)) with (RtoC 1) by ring. field. intros Q. injection Q. lra.
    - replace (Cplus (Cplus (Cplus (RtoC 1) (RtoC 0)) (RtoC 0)) (RtoC 1)) with (RtoC 2) by (rewrite <- !RtoC_plus; f_equal; ring). field. intros Q. injection Q. lra. }
  assert (ZI : forall c, In c z -> c = RtoC 1) by (intros c Hc; apply (In_nth _ _ (RtoC 0)) in Hc; destruct Hc as (i & Hi & <-); apply Z1; lia).
  assert (C1 : Cmod (RtoC 1) = 1) by (rewrite Cmod_R, Rabs_pos_eq; lra).
  assert (K1 : carg (RtoC 1) = 0).
  { unfold carg. rewrite C1. destruct (Reqb_spec 1 0); [lra|]. cbn [RtoC Im Re fst snd]. destruct (Rltb_spec 0 0); [lra|]. replace (1 / 1) with 1 by field. rewrite acos_1. ring. }
  assert (HP : polar_of f (TFComplex z) (map Cmod z) (robust_unwrap (map carg z) PI)) by (cbn; repeat split; lia).
  assert (P0 : forall x, In x (robust_unwrap (map carg z) PI) -> x = 0).
  { set (cz := map carg z). assert (CZ : forall k, nth k cz 0 = 0).
    { intros k. destruct (Nat.lt_ge_cases k (length cz)) as [Hk|Hk]; [|apply nth_overflow; exact Hk]. unfold cz in *. rewrite map_length in Hk. rewrite (map_nth' carg _ _ (RtoC 0)) by exact Hk. rewrite Z1 by lia. exact K1. }
    assert (NC1 : forall a b, ~ slow_climb cz a b) by (intros a b (_ & Hb & HR & _); specialize (HR a ltac:(lia)); rewrite !CZ in HR; lra).
    assert (NC2 : forall b, ~ opening_climb cz b) by (intros b (Hb & HR & _); specialize (HR 0%nat ltac:(lia)); rewrite !CZ in HR; lra).
    destruct (C27_no_climb cz PI NC1 NC2) as (EQ & E0 & _). rewrite EQ in E0 |- *. pose proof PI_RGT_0.
    assert (AL : forall k, (k < length cz)%nat -> nth k (np_unwrap PI cz) 0 = 0).
    { induction k as [|k IH]; intros Hk; [rewrite E0; apply CZ|]. pose proof (unwrap_step PI cz k Hk) as S. rewrite !CZ, IH in S by lia.
      destruct (phase_fix_spec PI (0 - 0)) as (_ & F & _). rewrite F in S by (rewrite Rminus_0_r, Rabs_R0; lra). lra. }
    intros x Hx. apply (In_nth _ _ 0) in Hx. destruct Hx as (k & Hk & <-). rewrite unwrap_length in Hk. apply AL, Hk. }
  assert (A1 : forall x, In x (map Cmod z) -> x = 1) by (intros x Hx; apply in_map_iff in Hx; destruct Hx as (c & <- & Hc); rewrite (ZI c Hc); exact C1).
  destruct y as [y|].
  - f_equal. eapply C26_identity; eauto.
  - exfalso. apply C26_not_finite in EA. destruct EA as (amp & ph & HP' & HC).
    assert (amp = map Cmod z /\ ph = robust_unwrap (map carg z) PI) as [-> ->] by (cbn [polar_of] in HP'; tauto). cbv zeta in HC.
    set (tab := combine f (combine (map Cmod z) (robust_unwrap (map carg z) PI))) in *.
    destruct (polar_lengths _ _ _ _ HP) as [La Lp]. assert (EF : map fst tab = f) by (apply tab_fst; assumption).
    assert (EX : exists q, In q tab /\ fmax_of s <= fst q).
    { assert (I : In (nth (half_len (length s) - 1) f 0) f) by (apply nth_In; lia). rewrite <- EF in I at 2. apply in_map_iff in I. destruct I as (q & Eq & Hq).
      exists q. split; [exact Hq|]. rewrite Eq, Gf by lia. replace (S (half_len (length s) - 1)) with (half_len (length s)) by lia. unfold fmax_of. pose proof (pos_INR (half_len (length s))). nra. }
    destruct HC as [[_ (s' & tab' & m & HPr & Hm & HZ)]|(_ & _ & _ & _ & HC & _)]; [|destruct EX as (q & Hq & G); specialize (HC q Hq); lra].
    destruct (prepared_ok _ _ _ _ _ HPr) as (_ & _ & Ht'). destruct HPr as (_ & _ & Ht & -> & HC).
    assert (HT' : forall q, In q tab' -> snd q = (1, 0)).
    { assert (HT : forall q, In q tab -> snd q = (1, 0)).
      { intros q Hq. destruct (combine_in_amp _ _ _ _ Hq) as [X Y]. destruct q as [u [v w]]. cbn in *. f_equal; auto. }
      destruct HC as (pre & post & -> & HC). destruct (last tab (0, (0, 0))) as [f0 [a0 p0]]. destruct HC as [[[_ ->]|[HC _]] HC2]; [|destruct EX as (q & Hq & G); specialize (HC q Hq); lra].
      rewrite app_nil_r. intros q Hq. apply in_app_iff in Hq. destruct Hq as [Hq|Hq]; [|apply HT, Hq]. destruct HC2 as [[_ ->]|[_ ->]]; [destruct Hq|]. destruct Hq as [<-|[]]. reflexivity. }
    rewrite (factor_const _ _ _ 1 Ht' HT') in HZ. injection HZ. lra.
Qed.

(** ** Instances *)
(** A record of three samples doubled by a transfer function, and back. *)
Example C26_instance :
  let s := [(0, 1); (1, 3); (2, 2)] in
  (exists y, amplify_motion s [1 / 10; 5] (TFPolar [2; 2] [0; -1]) false true false = Ok (Some y)) /\
  (exists y, amplify_motion s [1 / 10; 5] (TFComplex [RtoC 1; RtoC 1]) true true false = Ok (Some y)) /\
  amplify_motion s [1 / 10; 5] (TFPolar [2] [0; -1]) false true false = Err AssertionError /\
  prepared false s [(1 / 10, (2, 0)); (5, (2, -1))] s [(1 / 10, (2, 0)); (5, (2, -1))].
Proof.
  cbv zeta. assert (Es : step_of [(0, 1); (1, 3); (2, 2)] = 1) by (unfold step_of; cbn; ring).
  assert (Em : fmax_of [(0, 1); (1, 3); (2, 2)] = 2 / 3) by (unfold fmax_of, df_of; rewrite Es; cbn; field).
  split; [|split; [|split]].
  - apply (C26_amplifies _ _ _ _ [2; 2] [0; -1]); [cbn; auto | cbn; lia | rewrite Es; lra | discriminate | left; cbn; lra].
  - eapply (C26_amplifies _ _ (TFComplex [RtoC 1; RtoC 1])); [cbn; eauto | cbn; lia | rewrite Es; lra | discriminate | left; cbn; lra].
  - apply C26_errors. right. left. split; [left; cbn; lia | reflexivity].
  - split; [cbn; lia|]. split; [rewrite Es; lra|]. split; [discriminate|]. split; [reflexivity|]. exists O. split; [reflexivity|]. split; [cbn; lia|]. split; [rewrite Es; lra|].
    split; [exists (5, (2, -1)); split; [right; left; reflexivity | rewrite Em; cbn; lra]|]. intros j Hj. lia.
Qed.
(** Halving a record of four samples once brings it under the table. *)
Example C26_halving_instance :
  let s := [(0, 1); (1, 3); (2, 2); (3, 5)] in let tab := [(1 / 10, (2, 0)); (1 / 2, (2, -1))] in
  prepared false s tab [(0, 1); (2, 2)] tab.
Proof.
  cbv zeta. assert (Es : step_of [(0, 1); (1, 3); (2, 2); (3, 5)] = 1) by (unfold step_of; cbn; ring).
  assert (Es2 : step_of [(0, 1); (2, 2)] = 2) by (unfold step_of; cbn; ring).
  assert (Em : fmax_of [(0, 1); (1, 3); (2, 2); (3, 5)] = 3 / 4) by (unfold fmax_of, df_of; rewrite Es; cbn; field).
  assert (Em2 : fmax_of [(0, 1); (2, 2)] = 1 / 2) by (unfold fmax_of, df_of; rewrite Es2; cbn; field).
  split; [cbn; lia|]. split; [rewrite Es; lra|]. split; [discriminate|]. split; [reflexivity|]. exists 1%nat. split; [reflexivity|]. split; [cbn; lia|]. split; [rewrite Es2; lra|].
  split; [exists (1 / 2, (2, -1)); split; [right; left; reflexivity | rewrite Em2; cbn; lra]|].
  intros j Hj. replace j with O by lia. cbn [halved Nat.iter nat_rect]. split; [cbn; lia|]. split; [change (step_of [(0, 1); (1, 3); (2, 2); (3, 5)] <> 0); rewrite Es; lra|].
  intros q Hq. change (fst q < fmax_of [(0, 1); (1, 3); (2, 2); (3, 5)]). rewrite Em. destruct Hq as [<-|[<-|[]]]; cbn; lra.
Qed.
(** Rock and a layered profile. *)
Example C26_site_instance : table_wf (mktable false 2 [[0; 800]]) /\ valid_table (mktable false 2 [[0; 800]]) /\ 0 < step_of [(0, 1); (1, 3); (2, 2)].
Proof.
  split; [repeat constructor|]. split; [|unfold step_of; cbn; lra].
  exists false. split; [reflexivity|].
  exists [], [0; 800]. split; [reflexivity|]. split; [constructor|]. exists 0, 800, []. split; [reflexivity|]. split; [lra|]. split; [lra | reflexivity].
Qed.
