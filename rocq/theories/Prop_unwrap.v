(** C27: phase unwrapping. *)
From Coq Require Import Reals List Bool ZArith Lia Lra.
From Coquelicot Require Import Complex.
From Coq Require Import List.
From Verif Require Import Base M_generic M_profile M_vs_profile M_motion P_motion M_interp M_dft M_signal M_linear M_amplify P_unwrap.
Import ListNotations.
Open Scope R_scope.

(** The same angle. *)
Definition same_angle (a b : R) : Prop := exists z : Z, a = b + 2 * PI * IZR z.

Lemma same_angle_refl a : same_angle a a.
Proof. exists 0%Z. lra. Qed.
Lemma same_angle_sym a b : same_angle a b -> same_angle b a.
Proof. intros [z ->]. exists (- z)%Z. rewrite opp_IZR. lra. Qed.
Lemma same_angle_trans a b c : same_angle a b -> same_angle b c -> same_angle a c.
Proof. intros [z ->] [w ->]. exists (z + w)%Z. rewrite plus_IZR. lra. Qed.

(** ** The library function *)
Lemma mod2pi_spec x : 0 <= mod2pi x < 2 * PI /\ exists z, mod2pi x = x + 2 * PI * IZR z.
Proof.
  unfold mod2pi. pose proof PI_RGT_0. destruct (base_Int_part (x / (2 * PI))) as [H1 H2]. split.
  - set (z := IZR (Int_part (x / (2 * PI)))) in *. assert (E : x = x / (2 * PI) * (2 * PI)) by (field; lra).
    split.
    + assert (z * (2 * PI) <= x / (2 * PI) * (2 * PI)) by (apply Rmult_le_compat_r; lra). lra.
    + assert ((x / (2 * PI) - z) * (2 * PI) < 1 * (2 * PI)) by (apply Rmult_lt_compat_r; lra). lra.
  - exists (- Int_part (x / (2 * PI)))%Z. rewrite opp_IZR. lra.
Qed.

Lemma mod2pi_unique x y z : x = y + 2 * PI * IZR z -> 0 <= y < 2 * PI -> mod2pi x = y.
Proof.
  intros E Hy. destruct (mod2pi_spec x) as [H [w Ew]]. pose proof PI_RGT_0.
  assert (K : mod2pi x - y = 2 * PI * IZR (w + z)) by (rewrite plus_IZR; lra).
  assert (Hz : (w + z = 0)%Z).
  { assert (-1 < IZR (w + z) < 1).
    { split; apply Rmult_lt_reg_l with (2 * PI); lra. }
    destruct H1 as [A B]. apply lt_IZR in A. apply lt_IZR in B. lia. }
  rewrite Hz in K. lra.
Qed.

(** One step of the unwrapped array: the step of the input moved by whole turns into
    [-pi, pi], or left alone when it is smaller than [discont]. *)
Lemma phase_fix_spec d dd : (exists z, phase_fix d dd = 2 * PI * IZR z) /\
  (Rabs dd < d -> phase_fix d dd = 0) /\ (d <= Rabs dd -> - PI <= dd + phase_fix d dd <= PI).
Proof.
  unfold phase_fix. pose proof PI_RGT_0. destruct (Rltb_spec (Rabs dd) d) as [Hs|Hb].
  { split; [exists 0%Z; lra|]. split; [reflexivity|]. intros. lra. }
  destruct (mod2pi_spec (dd + PI)) as [Hm [z Ez]].
  cbv zeta. destruct (Reqb (mod2pi (dd + PI) - PI) (- PI) && Rltb 0 dd) eqn:E.
  - apply andb_prop in E. destruct E as [E1 E2]. destruct (Reqb_spec (mod2pi (dd + PI) - PI) (- PI)) as [E1'|]; [|discriminate].
    split; [exists (z + 1)%Z; rewrite plus_IZR; lra|]. split; [intros; lra|]. intros _. split; lra.
  - split; [exists z; lra|]. split; [intros; lra|]. intros _. split; lra.
Qed.

Lemma cumsum_head l : (0 < length l)%nat -> nth 0 (cumsum l) 0 = nth 0 l 0.
Proof. destruct l; cbn; intros; [lia|]. unfold cumsum. cbn. lra. Qed.
Lemma cumsum_step l k : (S k < length l)%nat -> nth (S k) (cumsum l) 0 = nth k (cumsum l) 0 + nth (S k) l 0.
Proof.
  unfold cumsum. assert (G : forall a, (S k < length l)%nat -> nth (S k) (cumsum_from a l) 0 = nth k (cumsum_from a l) 0 + nth (S k) l 0); [|apply G].
  revert k. induction l as [|x l IH]; intros k a H; [cbn in H; lia|].
  destruct k as [|k].
  - destruct l as [|y l]; [cbn in H; lia|]. cbn. lra.
  - change (nth (S k) (cumsum_from (a + x) l) 0 = nth k (cumsum_from (a + x) l) 0 + nth (S k) l 0). apply IH. cbn in H. lia.
Qed.

Lemma unwrap_length d l : length (np_unwrap d l) = length l.
Proof.
  destruct l as [|x l]; [reflexivity|]. cbn [np_unwrap length]. rewrite map_length, combine_length, cumsum_length, map_length, diffs_length. cbn [length]. lia.
Qed.
Lemma unwrap_head d l : nth 0 (np_unwrap d l) 0 = nth 0 l 0.
Proof. destruct l; reflexivity. Qed.
Lemma unwrap_nth d l k : (S k < length l)%nat -> nth (S k) (np_unwrap d l) 0 = nth (S k) l 0 + nth k (cumsum (map (phase_fix d) (diffs l))) 0.
Proof.
  intros H. destruct l as [|x l]; [cbn in H; lia|]. cbn [np_unwrap nth].
  set (c := cumsum (map (phase_fix d) (diffs (x :: l)))).
  assert (Ec : length c = length l) by (unfold c; rewrite cumsum_length, map_length, diffs_length; cbn; lia).
  cbn [length] in H. change 0 with ((fun q : R * R => fst q + snd q) (0, 0)) at 1 || idtac.
  rewrite (nth_indep _ 0 ((fun q : R * R => fst q + snd q) (0, 0))) by (rewrite map_length, combine_length; lia).
  rewrite (map_nth (fun q : R * R => fst q + snd q)), combine_nth by lia. reflexivity.
Qed.
Lemma unwrap_step d l k : (S k < length l)%nat ->
  nth (S k) (np_unwrap d l) 0 - nth k (np_unwrap d l) 0 = (nth (S k) l 0 - nth k l 0) + phase_fix d (nth (S k) l 0 - nth k l 0).
Proof.
  intros H. assert (Ef : nth k (map (phase_fix d) (diffs l)) 0 = phase_fix d (nth (S k) l 0 - nth k l 0)).
  { rewrite (nth_indep _ 0 (phase_fix d 0)) by (rewrite map_length, diffs_length; lia). rewrite map_nth, diffs_nth by lia. reflexivity. }
  rewrite unwrap_nth by lia. destruct k as [|k].
  - rewrite unwrap_head, cumsum_head by (rewrite map_length, diffs_length; lia). rewrite Ef. lra.
  - rewrite unwrap_nth by lia. rewrite cumsum_step by (rewrite map_length, diffs_length; lia). rewrite Ef. lra.
Qed.

(** ** C27: what the returned array is *)

(** Whatever the array, the result has as many entries, starts at the first entry of the
    rewritten array (below), every entry is the same angle as the rewritten entry, and no
    step larger than both pi and [discont] remains. *)
Theorem C27_unwrapped l d :
  length (robust_unwrap l d) = length l /\
  nth 0 (robust_unwrap l d) 0 = nth 0 (moved l) 0 /\
  (forall k, (k < length l)%nat -> same_angle (nth k (robust_unwrap l d) 0) (nth k (moved l) 0)) /\
  (forall k, (S k < length l)%nat ->
     let step := nth (S k) (robust_unwrap l d) 0 - nth k (robust_unwrap l d) 0 in
     let was := nth (S k) (moved l) 0 - nth k (moved l) 0 in
     (Rabs was < d /\ step = was) \/ (d <= Rabs was /\ - PI <= step <= PI)).
Proof.
  unfold robust_unwrap. destruct (moved_spec l) as (EL & _ & _). split; [rewrite unwrap_length; exact EL|]. split; [apply unwrap_head|]. split.
  - induction k as [|k IH]; intros Hk.
    + rewrite unwrap_head. apply same_angle_refl.
    + destruct (IH ltac:(lia)) as [z Ez]. pose proof (unwrap_step d (moved l) k ltac:(lia)) as E.
      destruct (phase_fix_spec d (nth (S k) (moved l) 0 - nth k (moved l) 0)) as [[w Ew] _].
      exists (z + w)%Z. rewrite plus_IZR. lra.
  - intros k Hk. pose (step := nth (S k) (np_unwrap d (moved l)) 0 - nth k (np_unwrap d (moved l)) 0). pose (was := nth (S k) (moved l) 0 - nth k (moved l) 0).
    change ((Rabs was < d /\ step = was) \/ (d <= Rabs was /\ - PI <= step <= PI)). assert (E : step = was + phase_fix d was) by (unfold step, was; apply unwrap_step; lia).
    destruct (phase_fix_spec d was) as (_ & H1 & H2). destruct (Rlt_le_dec (Rabs was) d) as [C|C].
    + left. split; [exact C|]. rewrite E, (H1 C). lra.
    + right. split; [exact C|]. rewrite E. apply H2, C.
Qed.

(** The rewritten array.  Samples of a climb of two steps or more between two falls, up
    to the one before its peak, go on a line from its foot to -pi; samples of an opening
    climb, up to the one before its peak, go on a line from the last sample of the array
    to -pi; all other samples are those of the input. *)
Theorem C27_rewritten l :
  length (moved l) = length l /\
  (forall a b k, slow_climb l a b -> (a <= k < b)%nat ->
     nth k (moved l) 0 = nth a l 0 + INR (k - a) / INR (b - a - 1) * (- PI - nth a l 0)) /\
  (forall b k, opening_climb l b -> (k < b)%nat ->
     nth k (moved l) 0 = last l 0 + INR (k + 1) / INR b * (- PI - last l 0)) /\
  (forall k, (forall a b, slow_climb l a b -> ~ (a <= k < b)%nat) -> (forall b, opening_climb l b -> ~ (k < b)%nat) ->
     nth k (moved l) 0 = nth k l 0).
Proof.
  destruct (moved_spec l) as (EL & HC & HN). split; [exact EL|]. split; [|split].
  - intros a b k Hc Hk. rewrite (HC (Z.of_nat a, Z.of_nat b) (k - a)%nat k).
    + unfold line. cbn [fst snd]. unfold pyidx. destruct (Z.ltb_spec (Z.of_nat a) 0); [lia|]. rewrite Nat2Z.id.
      replace (Z.of_nat b - Z.of_nat a - 1)%Z with (Z.of_nat (b - a - 1)) by (destruct Hc as (_ & ? & _); lia).
      rewrite <- INR_IZR_INZ. reflexivity.
    + left. exists a, b. split; [reflexivity | exact Hc].
    + split; cbn [fst snd]; [lia|]. unfold pyidx. destruct (Z.ltb_spec (Z.of_nat a + Z.of_nat (k - a)) 0); lia.
  - intros b k Hc Hk. assert (Hb : (S b < length l)%nat) by (destruct Hc as (_ & _ & ? & _); assumption).
    rewrite (HC ((-1)%Z, Z.of_nat b) (k + 1)%nat k).
    + unfold line. cbn [fst snd]. unfold pyidx. change (-1 <? 0)%Z with true. cbn [fst].
      replace (Z.to_nat (Z.of_nat (length l) + -1)) with (length l - 1)%nat by lia.
      replace (Z.of_nat b - -1 - 1)%Z with (Z.of_nat b) by lia. rewrite <- INR_IZR_INZ.
      assert (El : nth (length l - 1) l 0 = last l 0).
      { destruct l as [|x l'] using rev_ind; [cbn in Hb; lia|]. rewrite last_last, app_length. cbn [length].
        rewrite app_nth2 by lia. replace (length l' + 1 - 1 - length l')%nat with O by lia. reflexivity. }
      rewrite El. reflexivity.
    + right. exists b. split; [reflexivity | exact Hc].
    + split; cbn [fst snd]; [lia|]. unfold pyidx. destruct (Z.ltb_spec (-1 + Z.of_nat (k + 1)) 0); lia.
  - intros k H1 H2. apply HN. intros q j Hq Hv. destruct (climb_cover _ _ _ _ Hq Hv) as [P _]. destruct Hv as [Hv _].
    destruct Hq as [(a & b & -> & Hc) | (b & -> & Hc)]; cbn [fst snd] in *.
    + exfalso. apply (H1 a b Hc). lia.
    + destruct P as [[P _]|[_ [[P _]|[P1 P2]]]]; [lia | exact P |]. exfalso. apply (H2 b Hc). lia.
Qed.

(** The phase is kept modulo whole turns exactly when the lines agree, modulo whole
    turns, with the samples they replace. *)
Theorem C27_preserved_iff l d :
  (forall k, (k < length l)%nat -> same_angle (nth k (robust_unwrap l d) 0) (nth k l 0)) <->
  (forall a b k, slow_climb l a b -> (a < k < b)%nat ->
     same_angle (nth a l 0 + INR (k - a) / INR (b - a - 1) * (- PI - nth a l 0)) (nth k l 0)) /\
  (forall b k, opening_climb l b -> (k < b)%nat ->
     same_angle (last l 0 + INR (k + 1) / INR b * (- PI - last l 0)) (nth k l 0)).
Proof.
  destruct (C27_unwrapped l d) as (EL & _ & HS & _). destruct (moved_spec l) as (_ & _ & HN). destruct (C27_rewritten l) as (_ & H1 & H2 & _).
  assert (Q : (forall k, (k < length l)%nat -> same_angle (nth k (robust_unwrap l d) 0) (nth k l 0)) <->
              (forall k, (k < length l)%nat -> same_angle (nth k (moved l) 0) (nth k l 0))).
  { split; intros H k Hk.
    - eapply same_angle_trans; [apply same_angle_sym, HS, Hk | apply H, Hk].
    - eapply same_angle_trans; [apply HS, Hk | apply H, Hk]. }
  rewrite Q. clear Q. split.
  - intros H. split.
    + intros a b k Hc Hk. rewrite <- (H1 a b k Hc) by lia. apply H. destruct Hc as (_ & _ & _ & [Hc _]). lia.
    + intros b k Hc Hk. rewrite <- (H2 b k Hc) by lia. apply H. destruct Hc as (_ & _ & [Hc _]). lia.
  - intros [G1 G2] k Hk.
    assert (D : (exists q j, climb l q /\ cover l q j k /\ j <> O) \/ (forall q j, climb l q -> cover l q j k -> j = O)).
    { assert (F : forall qs, (exists q j, In q qs /\ cover l q j k /\ j <> O) \/ (forall q j, In q qs -> cover l q j k -> j = O)).
      { induction qs as [|q qs [(q' & j & I1 & I2)|I]].
        - right. intros q j [].
        - left. exists q', j. split; [right; exact I1 | exact I2].
        - assert (P : forall n, (exists j, (j < n)%nat /\ cover l q j k /\ j <> O) \/ (forall j, (j < n)%nat -> cover l q j k -> j = O)).
          { induction n as [|n [(j & J1 & J2)|J]]; [right; intros; lia | left; exists j; split; [lia | exact J2] |].
            destruct n as [|n]; [right; intros; lia|].
            destruct (Z_lt_dec (Z.of_nat (S n)) (snd q - fst q)) as [K|K].
            - destruct (Nat.eq_dec k (pyidx (length l) (fst q + Z.of_nat (S n)))) as [K'|K'].
              + left. exists (S n). split; [lia|]. split; [split; [exact K | exact K'] | lia].
              + right. intros j J1 [J2 J3]. destruct (Nat.eq_dec j (S n)) as [->|]; [congruence|]. apply J; [lia | split; assumption].
            - right. intros j J1 [J2 J3]. apply J; [lia | split; assumption]. }
          destruct (P (Z.to_nat (snd q - fst q))) as [(j & J1 & J2)|J].
          + left. exists q, j. split; [left; reflexivity | exact J2].
          + right. intros q' j [<-|I'] Hc; [apply J; [destruct Hc; lia | exact Hc] | eapply I; eauto]. }
      destruct (F (drawer l)) as [(q & j & I1 & I2)|I].
      - left. exists q, j. split; [destruct q; apply drawer_spec; exact I1 | exact I2].
      - right. intros q j Hq. apply I. destruct q. apply drawer_spec. exact Hq. }
    destruct D as [(q & j & Hq & Hv & Hj)|D]; [|rewrite (HN k D); apply same_angle_refl].
    destruct (climb_cover _ _ _ _ Hq Hv) as [P _]. destruct Hv as [Hv _].
    destruct Hq as [(a & b & -> & Hc) | (b & -> & Hc)]; cbn [fst snd] in *.
    + rewrite (H1 a b k Hc) by lia. apply G1; [exact Hc | lia].
    + rewrite (H2 b k Hc) by lia. apply G2; [exact Hc | lia].
Qed.

(** An array without such climbs is unwrapped without changing any angle. *)
Theorem C27_no_climb l d : (forall a b, ~ slow_climb l a b) -> (forall b, ~ opening_climb l b) ->
  robust_unwrap l d = np_unwrap d l /\
  nth 0 (robust_unwrap l d) 0 = nth 0 l 0 /\
  forall k, (k < length l)%nat -> same_angle (nth k (robust_unwrap l d) 0) (nth k l 0).
Proof.
  intros H1 H2. assert (E : moved l = l).
  { destruct (C27_rewritten l) as (EL & _ & _ & HN). apply nth_ext with 0 0; [exact EL|]. intros k _. apply HN.
    - intros a b Hc. destruct (H1 a b Hc).
    - intros b Hc. destruct (H2 b Hc). }
  split; [unfold robust_unwrap; rewrite E; reflexivity|]. split.
  - destruct (C27_unwrapped l d) as (_ & E0 & _). rewrite E0, E. reflexivity.
  - apply C27_preserved_iff. split.
    + intros a b k Hc. destruct (H1 a b Hc).
    + intros b k Hc. destruct (H2 b Hc).
Qed.

(** The claim of the function: a phase that only decreases, by less than pi per sample,
    and is recorded modulo whole turns in (-pi, pi] without a turn in the first step, is
    recovered exactly. *)
Theorem C27_recovers (phi l : list R) :
  length l = length phi ->
  (forall k, (k < length l)%nat -> - PI < nth k l 0 <= PI /\ same_angle (nth k l 0) (nth k phi 0)) ->
  (forall k, (S k < length l)%nat -> - PI < nth (S k) phi 0 - nth k phi 0 <= 0) ->
  nth 0 l 0 = nth 0 phi 0 ->
  ((1 < length l)%nat -> nth 1 l 0 = nth 1 phi 0) ->
  robust_unwrap l PI = phi.
Proof.
  intros EL HW HD H0 H1. pose proof PI_RGT_0 as HPI.
  assert (ST : forall k, (S k < length l)%nat ->
    (nth (S k) l 0 - nth k l 0 = nth (S k) phi 0 - nth k phi 0) \/ (nth (S k) l 0 - nth k l 0 = nth (S k) phi 0 - nth k phi 0 + 2 * PI)).
  { intros k Hk. destruct (HW k ltac:(lia)) as [W1 [z E1]]. destruct (HW (S k) Hk) as [W2 [w E2]]. specialize (HD k Hk).
    assert (K : nth (S k) l 0 - nth k l 0 = nth (S k) phi 0 - nth k phi 0 + 2 * PI * IZR (w - z)) by (rewrite minus_IZR; lra).
    assert (-1 < IZR (w - z) < 2).
    { split; apply Rmult_lt_reg_l with (2 * PI); lra. }
    destruct H as [A B]. apply lt_IZR in A. apply lt_IZR in B. assert (C : (w - z = 0 \/ w - z = 1)%Z) by lia.
    destruct C as [C|C]; rewrite C in K; [left | right]; lra. }
  assert (N : moved l = l).
  { destruct (C27_rewritten l) as (EL' & _ & _ & HN). apply nth_ext with 0 0; [exact EL'|]. intros k _. apply HN.
    - intros a b (_ & Hab & HR & [Hb _]) _.
      pose proof (HR a ltac:(lia)) as R1. pose proof (HR (S a) ltac:(lia)) as R2.
      destruct (HW a ltac:(lia)) as [W1 _]. destruct (HW (S a) ltac:(lia)) as [W2 _]. destruct (HW (S (S a)) ltac:(lia)) as [W3 _].
      pose proof (HD a ltac:(lia)) as D1. pose proof (HD (S a) ltac:(lia)) as D2.
      destruct (ST a ltac:(lia)), (ST (S a) ltac:(lia)); lra.
    - intros b (Hb1 & HR & [Hb _]) _. pose proof (HR 0%nat ltac:(lia)) as R1. pose proof (HD 0%nat ltac:(lia)) as D1.
      rewrite H0, H1 in R1 by lia. lra. }
  unfold robust_unwrap. rewrite N. apply nth_ext with 0 0; [rewrite unwrap_length; exact EL|].
  intros k Hk. rewrite unwrap_length in Hk. induction k as [|k IH].
  - rewrite unwrap_head. exact H0.
  - pose proof (unwrap_step PI l k Hk) as E. specialize (IH ltac:(lia)). specialize (HD k Hk).
    assert (F : nth (S k) l 0 - nth k l 0 + phase_fix PI (nth (S k) l 0 - nth k l 0) = nth (S k) phi 0 - nth k phi 0); [|lra].
    set (s := nth (S k) phi 0 - nth k phi 0) in *. destruct (ST k Hk) as [->| ->]; fold s.
    + destruct (phase_fix_spec PI s) as (_ & F & _). rewrite F; [lra|]. apply Rabs_def1; lra.
    + unfold phase_fix. destruct (Rltb_spec (Rabs (s + 2 * PI)) PI) as [C|C]; [apply Rabs_def2 in C; lra|].
      assert (M : mod2pi (s + 2 * PI + PI) = s + PI) by (apply mod2pi_unique with 1%Z; [ring | lra]).
      rewrite M. destruct (Reqb_spec (s + PI - PI) (- PI)); [lra|]. cbn [andb]. lra.
Qed.

(** The full claim "the result differs from the input by whole turns" fails: an array
    that starts with a climb is changed. *)
Theorem C27_preserved_refuted : exists l, ~ forall k, (k < length l)%nat -> same_angle (nth k (robust_unwrap l PI) 0) (nth k l 0).
Proof.
  exists [0; 1; 0]. intros H. apply C27_preserved_iff in H. destruct H as [_ H].
  assert (HO : opening_climb [0; 1; 0] 1).
  { split; [lia|]. split; [intros k Hk; replace k with O by lia; cbn; lra|]. split; cbn; [lia | lra]. }
  destruct (H 1%nat 0%nat HO ltac:(lia)) as [z E]. cbn in E. pose proof PI_RGT_0.
  assert (E' : PI * (2 * IZR z + 1) = 0) by lra. apply Rmult_integral in E'. destruct E' as [E'|E']; [lra|].
  assert (E2 : IZR (2 * z + 1) = 0) by (rewrite plus_IZR, mult_IZR; exact E'). apply eq_IZR in E2. lia.
Qed.

(** ** Instances *)
(** A phase 0, -2, -4 recorded as 0, -2, 2 pi - 4 is recovered. *)
Example C27_instance : robust_unwrap [0; -2; 2 * PI - 4] PI = [0; -2; -4] /\ ~ opening_climb [0; -2; 2 * PI - 4] 1.
Proof.
  assert (HP : 3 < PI <= 4).
  { split; [pose proof PI2_3_2; lra | pose proof PI_4; lra]. }
  split.
  - apply C27_recovers; try reflexivity.
    + intros k Hk. destruct k as [|[|[|k]]]; cbn in Hk |- *; [| | |lia].
      * split; [lra | apply same_angle_refl].
      * split; [lra | apply same_angle_refl].
      * split; [lra|]. exists 1%Z. lra.
    + intros k Hk. destruct k as [|[|k]]; cbn in Hk |- *; [| |lia]; lra.
  - intros (_ & HR & _). specialize (HR 0%nat ltac:(lia)). cbn in HR. lra.
Qed.
(** The slow jump of the documentation: the samples between trough and peak are moved. *)
Example C27_climb_instance : slow_climb [0; -3; 0; 3; 2] 1 3 /\ nth 2 (moved [0; -3; 0; 3; 2]) 0 = - PI.
Proof.
  assert (HC : slow_climb [0; -3; 0; 3; 2] 1 3).
  { split; [split; cbn; [lia | lra]|]. split; [lia|]. split; [|split; cbn; [lia | lra]].
    intros k Hk. assert (E : k = 1%nat \/ k = 2%nat) by lia. destruct E as [->| ->]; cbn; lra. }
  split; [exact HC|]. destruct (C27_rewritten [0; -3; 0; 3; 2]) as (_ & H & _). rewrite (H 1%nat 3%nat 2%nat HC ltac:(lia)). cbn. field.
Qed.
