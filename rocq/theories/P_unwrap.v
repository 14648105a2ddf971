(** Lemmas on phase unwrapping. *)
From Coq Require Import Reals List Bool ZArith Lia Lra.
From Coquelicot Require Import Complex.
From Coq Require Import List.
From Verif Require Import Base M_generic M_profile M_vs_profile M_motion M_interp M_dft M_signal M_linear M_amplify.
Import ListNotations.
Open Scope R_scope.

(** [l] climbs strictly from index [a] to index [b]. *)
Definition rises (l : list R) (a b : nat) : Prop := forall k, (a <= k < b)%nat -> nth k l 0 < nth (S k) l 0.
(** [l] comes down to (or stays level at) index [a]; comes down after index [b]. *)
Definition falls_to (l : list R) (a : nat) : Prop := (1 <= a)%nat /\ nth a l 0 <= nth (a - 1) l 0.
Definition falls_after (l : list R) (b : nat) : Prop := (S b < length l)%nat /\ nth (S b) l 0 <= nth b l 0.
(** A climb of two steps or more between two falls. *)
Definition slow_climb (l : list R) (a b : nat) : Prop := falls_to l a /\ (a + 1 < b)%nat /\ rises l a b /\ falls_after l b.
(** A climb of one step or more at the beginning of the array, with a fall after it. *)
Definition opening_climb (l : list R) (b : nat) : Prop := (1 <= b)%nat /\ rises l 0 b /\ falls_after l b.

Definition climb (l : list R) (q : Z * Z) : Prop :=
  (exists a b, q = (Z.of_nat a, Z.of_nat b) /\ slow_climb l a b) \/ (exists b, q = ((-1)%Z, Z.of_nat b) /\ opening_climb l b).

Lemma climb_peak l t p : climb l (t, p) -> exists b, p = Z.of_nat b /\ (1 <= b)%nat /\ falls_after l b /\ nth (b - 1) l 0 < nth b l 0.
Proof.
  intros [(a & b & E & H1 & H2 & H3 & H4) | (b & E & H1 & H2 & H3)]; inversion E; subst; exists b; split; auto.
  - split; [lia|]. split; [exact H4|]. specialize (H3 (b - 1)%nat ltac:(lia)). replace (S (b - 1)) with b in H3 by lia. exact H3.
  - split; [lia|]. split; [exact H3|]. specialize (H2 (b - 1)%nat ltac:(lia)). replace (S (b - 1)) with b in H2 by lia. exact H2.
Qed.

Definition inv (L : list R) (m : nat) (trough peak : Z) (flag : bool) : Prop :=
  if flag then peak = Z.of_nat m /\ ((trough = (-1)%Z /\ (1 <= m)%nat /\ rises L 0 m) \/ exists a, trough = Z.of_nat a /\ (a < m)%nat /\ falls_to L a /\ rises L a m)
  else (m = O /\ trough = (-1)%Z) \/ (trough = Z.of_nat m /\ falls_to L m).

Lemma rises_ext L a m : rises L a m -> nth m L 0 < nth (S m) L 0 -> rises L a (S m).
Proof. intros H E k Hk. destruct (Nat.eq_dec k m) as [->|]; auto. apply H. lia. Qed.

Lemma climbs_spec L suf : forall pre prev trough peak flag t p,
  L = pre ++ prev :: suf -> inv L (length pre) trough peak flag ->
  (In (t, p) (climbs (Z.of_nat (length pre) + 1) prev suf trough peak flag) <-> climb L (t, p) /\ (Z.of_nat (length pre) <= p)%Z).
Proof.
  induction suf as [|x suf IH]; intros pre prev trough peak flag t p EL HI.
  - cbn [climbs In]. split; [tauto|]. intros [H1 H2]. destruct (climb_peak _ _ _ H1) as (b & Eb & Hb & (Hb1 & _) & _).
    rewrite EL, app_length in Hb1. cbn in Hb1. lia.
  - assert (Em : nth (length pre) L 0 = prev) by (rewrite EL, app_nth2, Nat.sub_diag by lia; reflexivity).
    assert (Em1 : nth (S (length pre)) L 0 = x).
    { rewrite EL, app_nth2 by lia. replace (S (length pre) - length pre)%nat with 1%nat by lia. reflexivity. }
    assert (EL' : L = (pre ++ [prev]) ++ x :: suf) by (rewrite <- app_assoc; exact EL).
    assert (Elen : length (pre ++ [prev]) = S (length pre)) by (rewrite app_length; cbn; lia).
    assert (Ei : (Z.of_nat (length pre) + 1 + 1 = Z.of_nat (length (pre ++ [prev])) + 1)%Z) by lia.
    assert (HlenL : (S (length pre) < length L)%nat) by (rewrite EL, app_length; cbn; lia).
    cbn [climbs]. destruct (Rleb_spec x prev) as [Hle|Hgt].
    + rewrite Ei. rewrite in_app_iff, (IH _ _ _ peak false t p EL').
      2:{ cbn [inv]. right. rewrite Elen. split; [lia|]. split; [lia|]. replace (S (length pre) - 1)%nat with (length pre) by lia. rewrite Em, Em1. exact Hle. }
      rewrite Elen.
      assert (HF : falls_after L (length pre)) by (split; [exact HlenL | rewrite Em, Em1; exact Hle]).
      assert (K : In (t, p) (if flag && (trough + 1 <? peak)%Z then [(trough, peak)] else []) <-> climb L (t, p) /\ p = Z.of_nat (length pre)).
      { destruct flag; cbn [andb inv] in *.
        - destruct HI as [-> HI]. split.
          + destruct (Z.ltb_spec (trough + 1) (Z.of_nat (length pre))); [|intros []]. intros [E|[]]. inversion E; subst t p. split; [|reflexivity].
            destruct HI as [(-> & H1 & H2) | (a & -> & H1 & H2 & H3)].
            * right. exists (length pre). split; [reflexivity|]. split; [exact H1|]. split; assumption.
            * left. exists a, (length pre). split; [reflexivity|]. split; [exact H2|]. split; [lia|]. split; assumption.
          + intros [HC ->]. destruct HC as [(a' & b & E & H1 & H2 & H3 & H4) | (b & E & H1 & H2 & H3)]; inversion E as [[E1 E2]]; subst t; apply Nat2Z.inj in E2; subst b.
            * destruct HI as [(-> & Hm & HR) | (a & -> & Ha & HF0 & HR)].
              { destruct H1 as [H1 H1']. specialize (HR (a' - 1)%nat ltac:(lia)). replace (S (a' - 1)) with a' in HR by lia. lra. }
              { assert (a = a').
                { destruct (Nat.lt_trichotomy a a') as [C|[C|C]]; [exfalso|exact C|exfalso].
                  - destruct H1 as [H1 H1']. specialize (HR (a' - 1)%nat ltac:(lia)). replace (S (a' - 1)) with a' in HR by lia. lra.
                  - destruct HF0 as [G1 G1']. specialize (H3 (a - 1)%nat ltac:(lia)). replace (S (a - 1)) with a in H3 by lia. lra. }
                subst a'. destruct (Z.ltb_spec (Z.of_nat a + 1) (Z.of_nat (length pre))); [left; reflexivity | lia]. }
            * destruct HI as [(-> & Hm & HR) | (a & -> & Ha & HF0 & HR)].
              { destruct (Z.ltb_spec (-1 + 1) (Z.of_nat (length pre))); [left; reflexivity | lia]. }
              { destruct HF0 as [G1 G1']. specialize (H2 (a - 1)%nat ltac:(lia)). replace (S (a - 1)) with a in H2 by lia. lra. }
        - split; [intros []|]. intros [HC ->]. destruct (climb_peak _ _ _ HC) as (b & Eb & Hb & _ & Hlt). apply Nat2Z.inj in Eb. subst b.
          destruct HI as [[E0 _] | [_ [H1 H2]]]; [lia | lra]. }
      rewrite K. split.
      * intros [[H1 H2]|[H1 H2]]; split; auto; lia.
      * intros [H1 H2]. destruct (Z.eq_dec p (Z.of_nat (length pre))) as [->|Hne]; [left; split; auto|right; split; auto; lia].
    + rewrite Ei. rewrite (IH _ _ trough (Z.of_nat (length pre) + 1)%Z true t p EL').
      * rewrite Elen. split; intros [H1 H2]; split; auto; try lia.
        destruct (Z.eq_dec p (Z.of_nat (length pre))) as [E|]; [|lia]. exfalso.
        destruct (climb_peak _ _ _ H1) as (b & Eb & _ & [_ Hb] & _). subst p. apply Nat2Z.inj in Eb. subst b. rewrite Em, Em1 in Hb. lra.
      * cbn [inv]. rewrite Elen. split; [lia|].
        assert (Hup : nth (length pre) L 0 < nth (S (length pre)) L 0) by (rewrite Em, Em1; lra).
        destruct flag; cbn [inv] in HI.
        { destruct HI as [-> [(-> & H1 & H2) | (a & -> & H1 & H2 & H3)]].
          - left. split; [reflexivity|]. split; [lia|]. apply rises_ext; assumption.
          - right. exists a. split; [reflexivity|]. split; [lia|]. split; [assumption|]. apply rises_ext; assumption. }
        { destruct HI as [[H0 ->] | [-> H0]].
          - left. split; [reflexivity|]. split; [lia|]. rewrite H0 in *. intros k Hk. replace k with O by lia. exact Hup.
          - right. exists (length pre). split; [reflexivity|]. split; [lia|]. split; [assumption|]. intros k Hk. replace k with (length pre) by lia. exact Hup. }
Qed.

Lemma drawer_spec l t p : In (t, p) (drawer l) <-> climb l (t, p).
Proof.
  destruct l as [|x l].
  - cbn. split; [intros []|]. intros H. destruct (climb_peak _ _ _ H) as (b & _ & _ & [H1 _] & _). cbn in H1. lia.
  - cbn [drawer]. pose proof (climbs_spec (x :: l) l [] x (-1) (-1) false t p eq_refl (or_introl (conj eq_refl eq_refl))) as H.
    cbn [length] in H. change (Z.of_nat 0 + 1)%Z with 1%Z in H. rewrite H. split; [tauto|]. intros HC. split; [exact HC|].
    destruct (climb_peak _ _ _ HC) as (b & -> & _). lia.
Qed.

(** ** The writes *)
Lemma set_nth_length {A} k (v : A) l : length (set_nth k v l) = length l.
Proof. revert k. induction l; intros [|k]; cbn; auto. Qed.
Lemma set_nth_same {A} k (v : A) l d : (k < length l)%nat -> nth k (set_nth k v l) d = v.
Proof. revert k. induction l; intros [|k] H; cbn in *; auto; try lia. apply IHl. lia. Qed.
Lemma set_nth_other {A} k j (v : A) l d : j <> k -> nth j (set_nth k v l) d = nth j l d.
Proof. revert k j. induction l; intros [|k] [|j] H; cbn in *; auto; try lia. Qed.

(** The value written at position [j] of the climb [q]. *)
Definition line (l : list R) (q : Z * Z) (k : nat) : R :=
  nth (pyidx (length l) (fst q)) l 0 + INR k / IZR (snd q - fst q - 1) * (- PI - nth (pyidx (length l) (fst q)) l 0).
Definition cover (l : list R) (q : Z * Z) (k j : nat) : Prop :=
  (Z.of_nat k < snd q - fst q)%Z /\ j = pyidx (length l) (fst q + Z.of_nat k).

Lemma line_0 l q : line l q 0 = nth (pyidx (length l) (fst q)) l 0.
Proof. unfold line. cbn [INR]. unfold Rdiv. rewrite Rmult_0_l. ring. Qed.

(** A foot of a climb is only ever rewritten with its own value. *)
Lemma climb_cover l q k j : climb l q -> cover l q k j ->
  ((0 <= fst q)%Z /\ j = (Z.to_nat (fst q) + k)%nat \/ fst q = (-1)%Z /\ (k = O /\ j = (length l - 1)%nat \/ (1 <= k)%nat /\ j = (k - 1)%nat)) /\
  (j < length l)%nat /\ (1 <= length l)%nat.
Proof.
  intros [(a & b & -> & H1 & H2 & H3 & H4) | (b & -> & H1 & H2 & H3)] [C1 C2]; cbn [fst snd] in *; unfold pyidx in C2.
  - destruct (Z.ltb_spec (Z.of_nat a + Z.of_nat k) 0); [lia|]. destruct H4 as [H4 _]. split; [left; lia|]. lia.
  - destruct H3 as [H3 _]. destruct (Z.ltb_spec (-1 + Z.of_nat k) 0).
    + assert (k = O) by lia. subst k. split; [right; split; [reflexivity|]; left; lia|]. lia.
    + split; [right; split; [reflexivity|]; right; lia|]. lia.
Qed.

Lemma foot_cover l q q' k : climb l q -> climb l q' -> cover l q k (pyidx (length l) (fst q')) -> k = O.
Proof.
  intros Hq Hq' HC. destruct (climb_cover _ _ _ _ Hq HC) as [P1 [P2 P3]].
  assert (F : (exists a, pyidx (length l) (fst q') = a /\ falls_to l a) \/ pyidx (length l) (fst q') = (length l - 1)%nat).
  { destruct Hq' as [(a & b & -> & H1 & _) | (b & -> & _)]; cbn [fst]; unfold pyidx.
    - left. exists a. destruct (Z.ltb_spec (Z.of_nat a) 0); [lia|]. split; [lia | exact H1].
    - right. cbn. lia. }
  destruct HC as [C1 _].
  destruct Hq as [(a & b & -> & H1 & H2 & H3 & H4) | (b & -> & H1 & H2 & H3)]; cbn [fst snd] in *.
  - destruct P1 as [[_ P1]|[P1 _]]; [|lia]. destruct F as [(a' & E & F1 & F2) | E].
    + destruct k as [|k]; [reflexivity|exfalso]. rewrite E in P1. specialize (H3 (a' - 1)%nat ltac:(lia)).
      replace (S (a' - 1)) with a' in H3 by lia. lra.
    + destruct H4 as [H4 _]. lia.
  - destruct P1 as [[P1 _]|[_ P1]]; [lia|]. destruct P1 as [[P1 _]|[P1 P1']]; [exact P1|exfalso]. destruct H3 as [H3 _].
    destruct F as [(a' & E & F1 & F2) | E]; [|lia].
    specialize (H2 (a' - 1)%nat ltac:(lia)). replace (S (a' - 1)) with a' in H2 by lia. lra.
Qed.

(** Two climbs that cover the same sample are the same, or rewrite a foot. *)
Lemma climb_same l q q' k k' j : climb l q -> climb l q' -> cover l q k j -> cover l q' k' j -> line l q k = line l q' k' .
Proof.
  intros Hq Hq' C C'.
  destruct k as [|k].
  { assert (E : k' = O).
    { eapply (foot_cover l q' q); eauto. destruct C as [_ ->]. cbn in C'. rewrite Z.add_0_r in C'. exact C'. }
    subst k'. rewrite !line_0. destruct C as [_ E1]. destruct C' as [_ E2]. cbn in E1, E2. rewrite Z.add_0_r in E1, E2. rewrite <- E1, <- E2. reflexivity. }
  destruct k' as [|k'].
  { exfalso. assert (E : S k = O); [|lia].
    eapply (foot_cover l q q'); eauto. destruct C' as [_ ->]. cbn in C. rewrite Z.add_0_r in C. exact C. }
  assert (Q : q = q').
  { destruct (climb_cover _ _ _ _ Hq C) as [P1 _]. destruct (climb_cover _ _ _ _ Hq' C') as [P1' _]. destruct C as [C _], C' as [C' _].
    destruct Hq as [(a & b & -> & H1 & H2 & H3 & H4) | (b & -> & H1 & H2 & H3)];
    destruct Hq' as [(a' & b' & -> & H1' & H2' & H3' & H4') | (b' & -> & H1' & H2' & H3')]; cbn [fst snd] in *.
    - destruct P1 as [[_ P1]|[P1 _]]; [|lia]. destruct P1' as [[_ P1']|[P1' _]]; [|lia].
      assert (a = a').
      { destruct (Nat.lt_trichotomy a a') as [G|[G|G]]; auto; exfalso.
        - destruct H1' as [K1 K2]. specialize (H3 (a' - 1)%nat ltac:(lia)). replace (S (a' - 1)) with a' in H3 by lia. lra.
        - destruct H1 as [K1 K2]. specialize (H3' (a - 1)%nat ltac:(lia)). replace (S (a - 1)) with a in H3' by lia. lra. }
      subst a'. assert (b = b').
      { destruct (Nat.lt_trichotomy b b') as [G|[G|G]]; auto; exfalso.
        - destruct H4 as [_ K]. specialize (H3' b ltac:(lia)). lra.
        - destruct H4' as [_ K]. specialize (H3 b' ltac:(lia)). lra. }
      subst. reflexivity.
    - destruct P1 as [[_ P1]|[P1 _]]; [|lia]. destruct P1' as [[P1' _]|[_ [[P1' _]|[_ P1']]]]; try lia. exfalso.
      destruct H1 as [K1 K2]. specialize (H2' (a - 1)%nat ltac:(lia)). replace (S (a - 1)) with a in H2' by lia. lra.
    - destruct P1' as [[_ P1']|[P1' _]]; [|lia]. destruct P1 as [[P1 _]|[_ [[P1 _]|[_ P1]]]]; try lia. exfalso.
      destruct H1' as [K1 K2]. specialize (H2 (a' - 1)%nat ltac:(lia)). replace (S (a' - 1)) with a' in H2 by lia. lra.
    - assert (b = b').
      { destruct (Nat.lt_trichotomy b b') as [G|[G|G]]; auto; exfalso.
        - destruct H3 as [_ K]. specialize (H2' b ltac:(lia)). lra.
        - destruct H3' as [_ K]. specialize (H2 b' ltac:(lia)). lra. }
      subst. reflexivity. }
  subst q'. f_equal. destruct (climb_cover _ _ _ _ Hq C) as [P1 _]. destruct (climb_cover _ _ _ _ Hq C') as [P1' _].
  destruct P1 as [[G P1]|[G P1]], P1' as [[G' P1']|[G' P1']]; lia.
Qed.

(** State of the array while climbs are being rewritten: every sample is the original,
    or on the line of a climb that covers it. *)
Definition partly (l c : list R) : Prop :=
  length c = length l /\
  forall j, (j < length l)%nat -> nth j c 0 = nth j l 0 \/ exists q k, climb l q /\ cover l q k j /\ nth j c 0 = line l q k.
Definition done_at (l c : list R) (q : Z * Z) (k : nat) : Prop := forall j, cover l q k j -> nth j c 0 = line l q k.

Lemma partly_foot l c q : partly l c -> climb l q -> nth (pyidx (length l) (fst q)) c 0 = nth (pyidx (length l) (fst q)) l 0.
Proof.
  intros [H1 H2] Hq.
  assert (HL : (pyidx (length l) (fst q) < length l)%nat).
  { destruct Hq as [(a & b & -> & G1 & G2 & G3 & [G4 _]) | (b & -> & G1 & G2 & [G3 _])]; cbn [fst]; unfold pyidx.
    - destruct (Z.ltb_spec (Z.of_nat a) 0); lia.
    - cbn. lia. }
  destruct (H2 _ HL) as [E | (q' & k & Hq' & HC & E)]; [exact E|].
  assert (k = O) by (eapply (foot_cover l q' q); eauto). subst k. rewrite E, line_0. destruct HC as [_ HC]. cbn in HC. rewrite Z.add_0_r in HC. rewrite <- HC. reflexivity.
Qed.

Definition step_write (l : list R) (q : Z * Z) (c : list R) (k : nat) : list R :=
  set_nth (pyidx (length l) (fst q + Z.of_nat k)%Z) (nth (pyidx (length l) (fst q)) c 0 + INR k / IZR (snd q - fst q - 1) * (- PI - nth (pyidx (length l) (fst q)) l 0)) c.
Lemma move_pair_eq l c q : move_pair l c q = fold_left (step_write l q) (seq 0 (Z.to_nat (snd q - fst q))) c.
Proof. destruct q as [i1 i2]. reflexivity. Qed.

Lemma step_write_ok l q c k : climb l q -> (Z.of_nat k < snd q - fst q)%Z -> partly l c ->
  partly l (step_write l q c k) /\ done_at l (step_write l q c k) q k /\
  forall q' k', climb l q' -> done_at l c q' k' -> done_at l (step_write l q c k) q' k'.
Proof.
  intros Hq Hk HP. assert (Hc : cover l q k (pyidx (length l) (fst q + Z.of_nat k))) by (split; [exact Hk|reflexivity]).
  destruct (climb_cover _ _ _ _ Hq Hc) as (_ & HL & _).
  assert (Ev : nth (pyidx (length l) (fst q)) c 0 + INR k / IZR (snd q - fst q - 1) * (- PI - nth (pyidx (length l) (fst q)) l 0) = line l q k).
  { unfold line. rewrite (partly_foot l c q HP Hq). reflexivity. }
  unfold step_write. rewrite Ev. destruct HP as [HP1 HP2].
  assert (W : forall q' k' j, climb l q' -> cover l q' k' j -> j = pyidx (length l) (fst q + Z.of_nat k) -> line l q k = line l q' k').
  { intros q' k' j Hq' HC ->. eapply climb_same; eauto. }
  split; [|split].
  - split; [rewrite set_nth_length; exact HP1|]. intros j Hj. destruct (Nat.eq_dec j (pyidx (length l) (fst q + Z.of_nat k))) as [->|Hne].
    + right. exists q, k. split; [exact Hq|]. split; [exact Hc|]. apply set_nth_same. lia.
    + rewrite set_nth_other by exact Hne. apply HP2. exact Hj.
  - intros j [_ ->]. apply set_nth_same. lia.
  - intros q' k' Hq' HD j HC. destruct (Nat.eq_dec j (pyidx (length l) (fst q + Z.of_nat k))) as [E|Hne].
    + rewrite <- (W q' k' j Hq' HC E). rewrite E. apply set_nth_same. lia.
    + rewrite set_nth_other by exact Hne. apply HD. exact HC.
Qed.

Lemma move_pair_ok l c q : climb l q -> partly l c ->
  partly l (move_pair l c q) /\ (forall k, (Z.of_nat k < snd q - fst q)%Z -> done_at l (move_pair l c q) q k) /\
  forall q' k', climb l q' -> done_at l c q' k' -> done_at l (move_pair l c q) q' k'.
Proof.
  intros Hq HP. rewrite move_pair_eq.
  assert (G : forall ks c, (forall k, In k ks -> (Z.of_nat k < snd q - fst q)%Z) -> partly l c ->
    partly l (fold_left (step_write l q) ks c) /\ (forall k, In k ks -> done_at l (fold_left (step_write l q) ks c) q k) /\
    forall q' k', climb l q' -> done_at l c q' k' -> done_at l (fold_left (step_write l q) ks c) q' k').
  { clear c HP. induction ks as [|k ks IH]; intros c Hks HP; cbn [fold_left].
    - split; [exact HP|]. split; [intros k []|auto].
    - destruct (step_write_ok l q c k Hq (Hks k (or_introl eq_refl)) HP) as (A1 & A2 & A3).
      destruct (IH _ (fun k' H => Hks k' (or_intror H)) A1) as (B1 & B2 & B3). split; [exact B1|]. split.
      + intros k' [<-|H]; [apply B3; auto | apply B2; exact H].
      + intros q' k' Hq' HD. apply B3; auto. }
  destruct (G (seq 0 (Z.to_nat (snd q - fst q))) c) as (A1 & A2 & A3).
  - intros k Hk. apply in_seq in Hk. lia.
  - exact HP.
  - split; [exact A1|]. split; [|exact A3]. intros k Hk. apply A2. apply in_seq. lia.
Qed.

Theorem moved_spec l :
  length (moved l) = length l /\
  (forall q k j, climb l q -> cover l q k j -> nth j (moved l) 0 = line l q k) /\
  (forall j, (forall q k, climb l q -> cover l q k j -> k = O) -> nth j (moved l) 0 = nth j l 0).
Proof.
  unfold moved.
  assert (G : forall qs c, (forall q, In q qs -> climb l q) -> partly l c ->
    partly l (fold_left (move_pair l) qs c) /\ (forall q k, In q qs -> (Z.of_nat k < snd q - fst q)%Z -> done_at l (fold_left (move_pair l) qs c) q k) /\
    forall q k, climb l q -> done_at l c q k -> done_at l (fold_left (move_pair l) qs c) q k).
  { induction qs as [|q qs IH]; intros c Hqs HP; cbn [fold_left].
    - split; [exact HP|]. split; [intros q k []|auto].
    - destruct (move_pair_ok l c q (Hqs q (or_introl eq_refl)) HP) as (A1 & A2 & A3).
      destruct (IH _ (fun k' H => Hqs k' (or_intror H)) A1) as (B1 & B2 & B3). split; [exact B1|]. split.
      + intros q' k' [<-|H] Hk; [apply B3; auto; apply Hqs; left; reflexivity | apply B2; assumption].
      + intros q' k' Hq' HD. apply B3; auto. }
  destruct (G (drawer l) l) as ((A1 & A1') & A2 & _).
  - intros [t p] H. apply drawer_spec. exact H.
  - split; [reflexivity|]. intros j _. left. reflexivity.
  - split; [exact A1|]. split.
    + intros [t p] k j HC HV. refine (A2 (t, p) k _ _ j HV).
      * apply drawer_spec. exact HC.
      * exact (proj1 HV).
    + intros j Hj. destruct (Nat.lt_ge_cases j (length l)) as [Hl|Hl].
      * destruct (A1' j Hl) as [E | (q & k & Hq & HC & E)]; [exact E|]. assert (k = O) by exact (Hj q k Hq HC). subst k. rewrite E, line_0. destruct HC as [_ ->]. cbn. rewrite Z.add_0_r. reflexivity.
      * rewrite !nth_overflow by lia. reflexivity.
Qed.
