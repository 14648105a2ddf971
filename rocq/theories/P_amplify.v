(** Lemmas on amplification in the frequency domain. *)
From Coq Require Import Reals List Bool ZArith Lia Lra.
From Coquelicot Require Import Complex.
From Coq Require Import List.
From Verif Require Import Base M_generic M_profile M_vs_profile M_motion P_motion M_interp P_interp M_dft P_dft M_signal M_linear M_simlin P_simlin P_eqlin M_amplify.
Import ListNotations.
Open Scope R_scope.

Lemma czerob_spec z : reflect (z = RtoC 0) (czerob z).
Proof.
  unfold czerob. destruct z as [x y]. cbn [fst snd]. destruct (Reqb_spec x 0) as [->|H]; [destruct (Reqb_spec y 0) as [->|H']|]; cbn [andb]; constructor; [reflexivity| |]; intros E; injection E; intros; contradiction.
Qed.

(** ** Frequencies *)
Lemma half_len_bounds n : (2 <= n)%nat -> (2 <= half_len n)%nat /\ (if Nat.even n then n = 2 * (half_len n - 1) else n = 2 * half_len n - 1)%nat.
Proof.
  intros H. unfold half_len. destruct (Nat.even n) eqn:E.
  - apply Nat.even_spec in E. destruct E as [k ->]. rewrite (Nat.mul_comm 2 k), Nat.div_mul by lia. lia.
  - assert (O : Nat.odd n = true) by (unfold Nat.odd; rewrite E; reflexivity). apply Nat.odd_spec in O. destruct O as [k ->].
    replace (2 * k + 1 + 1)%nat with ((k + 1) * 2)%nat by lia. rewrite Nat.div_mul by lia. lia.
Qed.

Definition df_of (s : signal) : R := 1 / step_of s / INR (length s).
Definition grid_of (s : signal) : fgrid :=
  mkfgrid (df_of s) (INR (half_len (length s)) * df_of s) (length s) (half_len (length s))
          (linspace (df_of s) (INR (half_len (length s)) * df_of s) (half_len (length s))).

Lemma get_freq_interval_eq s : get_freq_interval s =
  if Nat.leb (length s) 1 then Err ValueError else if Reqb (step_of s) 0 then Err ZeroDivisionError else Ok (grid_of s).
Proof.
  unfold get_freq_interval. destruct (Nat.leb_spec (length s) 1) as [|H]; [reflexivity|].
  unfold first_step. rewrite !(get_ok _ _ 0) by (rewrite times_length; lia). cbn [bind]. fold (step_of s). reflexivity.
Qed.

Lemma grid_f_nth s m : (2 <= length s)%nat -> (m < half_len (length s))%nat -> nth m (fg_f (grid_of s)) 0 = INR (m + 1) * df_of s.
Proof.
  intros H Hm. destruct (half_len_bounds _ H) as [Hh _]. cbn [grid_of fg_f]. rewrite linspace_nth' by assumption.
  rewrite plus_INR, minus_INR by lia. cbn [INR]. field. assert (2 <= INR (half_len (length s))) by (apply (le_INR 2); exact Hh). lra.
Qed.

(** ** The double-sided transfer function *)
Definition ampl (tab : list (R * (R * R))) : list (R * R) := map (fun q => (fst q, fst (snd q))) tab.
Definition phas (tab : list (R * (R * R))) : list (R * R) := map (fun q => (fst q, snd (snd q))) tab.
(** The transfer function at a frequency: amplitude and phase are interpolated linearly
    (constant outside the table). *)
Definition tf_at (tab : list (R * (R * R))) (f : R) : C := Cmult (RtoC (ival (ampl tab) f)) (cis (ival (phas tab) f)).
(** The factor of harmonic [m] of a record of [n] samples. *)
Definition factor (n : nat) (df : R) (tab : list (R * (R * R))) (m : nat) : C :=
  if Nat.eqb m 0 then RtoC (Re (tf_at tab df))
  else if Nat.eqb (2 * m) n then RtoC (Re (tf_at tab (INR (m + 1) * df)))
  else if Nat.ltb (2 * m) n then tf_at tab (INR (m + 1) * df)
  else Cconj (tf_at tab (INR (n - m + 1) * df)).

Lemma set_real_first_nth l k : nth k (set_real_first l) (RtoC 0) = if Nat.eqb k 0 then RtoC (Re (nth k l (RtoC 0))) else nth k l (RtoC 0).
Proof. destruct l as [|z l], k; reflexivity. Qed.
Lemma set_real_first_length l : length (set_real_first l) = length l.
Proof. destruct l; reflexivity. Qed.
Lemma set_real_last_eq l z : set_real_last (l ++ [z]) = l ++ [RtoC (Re z)].
Proof. unfold set_real_last. rewrite rev_app_distr. cbn [rev app]. rewrite rev_involutive. reflexivity. Qed.
Lemma set_real_last_length l : length (set_real_last l) = length l.
Proof. destruct l as [|z l] using rev_ind; [reflexivity|]. rewrite set_real_last_eq, !app_length. reflexivity. Qed.
Lemma set_real_last_nth l k : (k < length l)%nat -> nth k (set_real_last l) (RtoC 0) = if Nat.eqb (S k) (length l) then RtoC (Re (nth k l (RtoC 0))) else nth k l (RtoC 0).
Proof.
  destruct l as [|z l] using rev_ind; [cbn; lia|]. intros Hk. rewrite set_real_last_eq. rewrite app_length in *. cbn [length] in *.
  destruct (Nat.eqb_spec (S k) (length l + 1)).
  - rewrite !app_nth2 by lia. replace (k - length l)%nat with O by lia. reflexivity.
  - rewrite !app_nth1 by lia. reflexivity.
Qed.
Lemma nth_skip1 {A} (l : list A) k d : nth k (skipn 1 l) d = nth (S k) l d.
Proof. destruct l; destruct k; reflexivity. Qed.
Lemma nth_first {A} n (l : list A) k d : (k < n)%nat -> nth k (firstn n l) d = nth k l d.
Proof. revert l k. induction n as [|n IH]; intros l k H; [lia|]. destruct l as [|x l], k; cbn; auto. apply IH. lia. Qed.

Lemma double_sided_eq s tab : (2 <= length s)%nat ->
  double_sided (length s) (half_len (length s)) (map (tf_at tab) (fg_f (grid_of s))) = map (factor (length s) (df_of s) tab) (seq 0 (length s)).
Proof.
  intros Hn. set (n := length s). set (h := half_len n). destruct (half_len_bounds n Hn) as [Hh Hp]. fold h in Hh, Hp.
  set (ss := map (tf_at tab) (fg_f (grid_of s))).
  assert (Ls : length ss = h) by (unfold ss; rewrite map_length; cbn [grid_of fg_f]; apply linspace_length).
  assert (Ns : forall m, (m < h)%nat -> nth m ss (RtoC 0) = tf_at tab (INR (m + 1) * df_of s)).
  { intros m Hm. unfold ss. rewrite (map_nth' _ _ _ 0) by (cbn [grid_of fg_f]; rewrite linspace_length; exact Hm). rewrite grid_f_nth by assumption. reflexivity. }
  set (ss2 := if Nat.even n then set_real_last (set_real_first ss) else set_real_first ss).
  set (upto := if Nat.even n then (h - 1)%nat else h).
  assert (E : double_sided n h ss = ss2 ++ map Cconj (rev (skipn 1 (firstn upto ss2)))) by reflexivity.
  rewrite E. clear E.
  assert (L2 : length ss2 = h).
  { unfold ss2. destruct (Nat.even n); rewrite ?set_real_last_length, set_real_first_length; exact Ls. }
  assert (N2 : forall m, (m < h)%nat -> nth m ss2 (RtoC 0) = factor n (df_of s) tab m).
  { intros m Hm. unfold factor.
    assert (F : nth m (set_real_first ss) (RtoC 0) = if Nat.eqb m 0 then RtoC (Re (tf_at tab (INR (m + 1) * df_of s))) else tf_at tab (INR (m + 1) * df_of s)).
    { rewrite set_real_first_nth, Ns by exact Hm. reflexivity. }
    assert (D : INR (0 + 1) * df_of s = df_of s) by (cbn; ring).
    unfold ss2. destruct (Nat.even n).
    - rewrite set_real_last_nth by (rewrite set_real_first_length; lia). rewrite set_real_first_length, Ls, F.
      destruct (Nat.eqb_spec m 0) as [->|Hm0].
      + rewrite D. destruct (Nat.eqb_spec 1 h); [lia|reflexivity].
      + destruct (Nat.eqb_spec (S m) h), (Nat.eqb_spec (2 * m) n), (Nat.ltb_spec (2 * m) n); try lia; reflexivity.
    - rewrite F. destruct (Nat.eqb_spec m 0) as [->|Hm0]; [rewrite D; reflexivity|].
      destruct (Nat.eqb_spec (2 * m) n), (Nat.ltb_spec (2 * m) n); try lia; reflexivity. }
  assert (LT : length (skipn 1 (firstn upto ss2)) = (n - h)%nat).
  { rewrite skipn_length, firstn_length, L2. unfold upto. destruct (Nat.even n); lia. }
  apply list_eq_nth.
  - rewrite app_length, map_length, rev_length, LT, map_length, seq_length, L2. destruct (Nat.even n); lia.
  - intros k Hk. assert (Hk' : (k < n)%nat).
    { rewrite app_length, map_length, rev_length, LT, L2 in Hk. destruct (Nat.even n); lia. }
    rewrite nth_map_seq by exact Hk'. destruct (Nat.lt_ge_cases k h) as [C|C].
    + rewrite app_nth1 by lia. apply N2, C.
    + rewrite app_nth2 by lia. rewrite L2.
      assert (Ha : (k - h < length (rev (skipn 1 (firstn upto ss2))))%nat) by (rewrite rev_length, LT; destruct (Nat.even n); lia).
      rewrite (map_nth' _ _ _ (RtoC 0)) by exact Ha. rewrite rev_length, LT in Ha. rewrite rev_nth by (rewrite LT; exact Ha).
      rewrite LT, nth_skip1, nth_first by (unfold upto; destruct (Nat.even n); lia).
      replace (S (n - h - S (k - h))) with (n - k)%nat by lia. rewrite N2 by (destruct (Nat.even n); lia).
      unfold factor. destruct (Nat.eqb_spec (n - k) 0); [lia|]. destruct (Nat.eqb_spec k 0); [lia|].
      destruct (Nat.eqb_spec (2 * (n - k)) n), (Nat.ltb_spec (2 * (n - k)) n), (Nat.eqb_spec (2 * k) n), (Nat.ltb_spec (2 * k) n); try (destruct (Nat.even n); lia).
      reflexivity.
Qed.

Lemma factor_symmetric n df tab : symmetric (map (factor n df tab) (seq 0 n)).
Proof.
  split.
  - intros H. destruct n as [|n]; [cbn in H; congruence|]. rewrite nth_map_seq by lia. unfold factor. cbn [Nat.eqb]. apply Cconj_R.
  - rewrite map_length, seq_length. intros k Hk. rewrite !nth_map_seq by lia. unfold factor.
    destruct (Nat.eqb_spec (n - k) 0); [lia|]. destruct (Nat.eqb_spec k 0); [lia|].
    destruct (Nat.eqb_spec (2 * (n - k)) n), (Nat.ltb_spec (2 * (n - k)) n), (Nat.eqb_spec (2 * k) n), (Nat.ltb_spec (2 * k) n); try lia.
    + rewrite Cconj_R. replace (n - k)%nat with k by lia. reflexivity.
    + rewrite Cconj_invol. reflexivity.
    + replace (n - (n - k))%nat with k by lia. reflexivity.
Qed.

Lemma tf_double_eq s tab : (2 <= length s)%nat -> tab <> [] ->
  tf_double (grid_of s) tab = Ok (map (factor (length s) (df_of s) tab) (seq 0 (length s))).
Proof.
  intros Hn Ht. unfold tf_double.
  assert (NI : forall pts xs, pts <> [] -> np_interp pts xs = Ok (map (ival pts) xs)).
  { intros pts xs H. unfold np_interp. destruct pts; [congruence|]. apply map_res_ok. intros x _. apply interp1_ival. discriminate. }
  fold (ampl tab). fold (phas tab).
  rewrite !NI by (unfold ampl, phas; destruct tab; [congruence | discriminate]). cbn [bind]. f_equal.
  rewrite <- double_sided_eq by exact Hn. cbn [grid_of fg_n fg_half]. f_equal.
  generalize (fg_f (grid_of s)). intros l. induction l as [|x l IH]; [reflexivity|]. cbn [map combine]. rewrite IH. reflexivity.
Qed.

(** ** The response *)
Lemma symmetric_map2 (op : C -> C -> C) X Y : length X = length Y ->
  (forall a b, Cconj (op a b) = op (Cconj a) (Cconj b)) -> symmetric X -> symmetric Y ->
  symmetric (map (fun q => op (fst q) (snd q)) (combine X Y)).
Proof.
  intros L Hop [HX0 HX] [HY0 HY].
  assert (N : forall k, (k < length X)%nat -> nth k (map (fun q => op (fst q) (snd q)) (combine X Y)) (RtoC 0) = op (nth k X (RtoC 0)) (nth k Y (RtoC 0))).
  { intros k Hk. rewrite (map_nth' (fun q : C * C => op (fst q) (snd q)) _ _ (RtoC 0, RtoC 0)) by (rewrite combine_length; lia). rewrite combine_nth by exact L. reflexivity. }
  split.
  - intros H. destruct X as [|x X]; [cbn in H; congruence|]. destruct Y as [|y Y]; [discriminate|]. rewrite N by (cbn; lia). rewrite Hop, HX0, HY0 by discriminate. reflexivity.
  - rewrite map_length, combine_length, <- L, Nat.min_id. intros k Hk. rewrite !N by lia. rewrite Hop. rewrite HX by lia. f_equal. rewrite L. apply HY. lia.
Qed.

Lemma Cconj_inv a : Cconj (Cinv a) = Cinv (Cconj a).
Proof.
  destruct a as [x y]. unfold Cconj, Cinv. cbn [fst snd]. replace (x ^ 2 + (- y) ^ 2) with (x ^ 2 + y ^ 2) by ring.
  apply injective_projections; cbn [fst snd]; [reflexivity | unfold Rdiv; ring].
Qed.
Lemma Cconj_div a b : Cconj (Cdiv a b) = Cdiv (Cconj a) (Cconj b).
Proof. unfold Cdiv. rewrite Cconj_mult, Cconj_inv. reflexivity. Qed.

Definition applied (deconv : bool) (A H : C) : C := if deconv then Cdiv A H else Cmult A H.
Lemma respond_some deconv x H y : length H = length x -> symmetric H -> respond deconv (dft (map RtoC x)) H = Some y ->
  length y = length x /\
  (deconv = true -> forall m, (m < length x)%nat -> nth m H (RtoC 0) <> RtoC 0) /\
  dft (map RtoC y) = map (fun q => applied deconv (fst q) (snd q)) (combine (dft (map RtoC x)) H).
Proof.
  intros L S. unfold respond. destruct (deconv && existsb czerob H) eqn:E; [discriminate|]. intros E'. injection E' as <-.
  assert (LA : length (dft (map RtoC x)) = length x) by (rewrite dft_length, map_length; reflexivity).
  split; [|split].
  - rewrite map_length, idft_length, map_length, combine_length, LA, L, Nat.min_id. reflexivity.
  - intros -> m Hm HZ. cbn [andb] in E. assert (existsb czerob H = true); [|congruence]. apply existsb_exists. exists (nth m H (RtoC 0)).
    split; [apply nth_In; lia|]. rewrite HZ. destruct (czerob_spec (RtoC 0)); congruence.
  - rewrite real_idft; [apply dft_idft|]. apply (symmetric_map2 (applied deconv)).
    + rewrite LA, L. reflexivity.
    + intros a b. destruct deconv; cbn [applied]; [apply Cconj_div | apply Cconj_mult].
    + apply dft_symmetric.
    + exact S.
Qed.
Lemma respond_none deconv A H : respond deconv A H = None <-> deconv = true /\ exists m, (m < length H)%nat /\ nth m H (RtoC 0) = RtoC 0.
Proof.
  unfold respond. destruct deconv; cbn [andb]; [|split; [discriminate | intros [E _]; discriminate]].
  destruct (existsb czerob H) eqn:E; (split; [intros E0|intros [_ (m & Hm & HZ)]]).
  - split; [reflexivity|]. apply existsb_exists in E. destruct E as (z & Hz & Ez). destruct (In_nth _ _ (RtoC 0) Hz) as (m & Hm & En). exists m. split; [exact Hm|].
    destruct (czerob_spec z); congruence.
  - reflexivity.
  - discriminate.
  - exfalso. assert (existsb czerob H = true); [|congruence]. apply existsb_exists. exists (nth m H (RtoC 0)). split; [apply nth_In; exact Hm|]. rewrite HZ. destruct (czerob_spec (RtoC 0)); congruence.
Qed.

(** ** Halving the record *)
Definition halved {A} (k : nat) (l : list A) : list A := Nat.iter k every_other l.
Lemma every_other_length {A} (l : list A) : length (every_other l) = ((length l + 1) / 2)%nat.
Proof.
  assert (G : forall n l, (length l <= n)%nat -> length (@every_other A l) = ((length l + 1) / 2)%nat); [|apply (G (length l)); lia].
  induction n as [|n IH]; intros [|x [|y l0]] H; try reflexivity; cbn [length] in H; try lia.
  change (every_other (x :: y :: l0)) with (x :: every_other l0). cbn [length]. rewrite IH by lia.
  replace (S (S (length l0)) + 1)%nat with ((length l0 + 1) + 1 * 2)%nat by lia. rewrite Nat.div_add by lia. lia.
Qed.
Lemma every_other_nth {A} (l : list A) d : forall k, nth k (every_other l) d = nth (2 * k) l d.
Proof.
  assert (G : forall n l k, (length l <= n)%nat -> nth k (@every_other A l) d = nth (2 * k) l d); [|intros k; apply (G (length l)); lia].
  induction n as [|n IH]; intros [|x [|y l0]] k H; cbn [length] in H; try lia.
  - destruct k; cbn; [reflexivity|]. destruct (k + S (k + 0))%nat; reflexivity.
  - destruct k; cbn; [reflexivity|]. destruct (k + S (k + 0))%nat; reflexivity.
  - destruct k as [|k]; [reflexivity|]. destruct k as [|k]; cbn; [reflexivity|]. destruct (k + S (S (k + 0)))%nat; reflexivity.
  - change (every_other (x :: y :: l0)) with (x :: every_other l0). destruct k as [|k]; [reflexivity|].
    change (nth (S k) (x :: every_other l0) d) with (nth k (every_other l0) d). rewrite IH by lia.
    replace (2 * S k)%nat with (S (S (2 * k))) by lia. reflexivity.
Qed.
Lemma halved_S {A} k (l : list A) : halved k (every_other l) = halved (S k) l.
Proof. unfold halved. induction k as [|k IH]; [reflexivity|]. exact (f_equal every_other IH). Qed.
Lemma half_lt n : (2 <= n)%nat -> ((n + 1) / 2 < n)%nat.
Proof. intros H. apply Nat.div_lt_upper_bound; lia. Qed.

(** A record whose frequencies are all covered up to [hi]. *)
Definition fmax_of (s : signal) : R := INR (half_len (length s)) * df_of s.

Lemma downsample_ok hi : forall fuel s s' g', (length s <= fuel)%nat ->
  downsample fuel hi s (grid_of s) = Ok (s', g') -> (2 <= length s)%nat -> step_of s <> 0 ->
  exists k, s' = halved k s /\ g' = grid_of s' /\ (2 <= length s')%nat /\ step_of s' <> 0 /\ fmax_of s' <= hi /\
    forall j, (j < k)%nat -> (2 <= length (halved j s))%nat /\ step_of (halved j s) <> 0 /\ hi < fmax_of (halved j s).
Proof.
  induction fuel as [|fuel IH]; intros s s' g' Hf E Hn Hs; [lia|]. cbn [downsample] in E.
  change (fg_fmax (grid_of s)) with (fmax_of s) in E. destruct (Rltb_spec hi (fmax_of s)) as [C|C].
  - destruct (Nat.leb_spec (length (every_other s)) 1) as [|C1]; [discriminate|].
    rewrite get_freq_interval_eq in E. destruct (Nat.leb_spec (length (every_other s)) 1); [lia|].
    destruct (Reqb_spec (step_of (every_other s)) 0) as [|C2]; [discriminate|]. cbn [bind] in E.
    destruct (IH (every_other s) s' g') as (k & E1 & E2 & E3 & E4 & E5 & E6); auto.
    { rewrite every_other_length. pose proof (half_lt _ Hn). lia. }
    exists (S k). rewrite <- halved_S. split; [exact E1|]. split; [exact E2|]. split; [exact E3|]. split; [exact E4|]. split; [exact E5|].
    intros j Hj. destruct j as [|j]; [cbn; auto|]. rewrite <- halved_S. apply E6. lia.
  - injection E as <- <-. exists O. split; [reflexivity|]. split; [reflexivity|]. split; [exact Hn|]. split; [exact Hs|]. split; [lra|]. intros j Hj. lia.
Qed.
Lemma downsample_err hi : forall fuel s e, (length s <= fuel)%nat -> (2 <= length s)%nat -> step_of s <> 0 ->
  (downsample fuel hi s (grid_of s) = Err e <->
   exists k, (forall j, (j <= k)%nat -> (2 <= length (halved j s))%nat /\ step_of (halved j s) <> 0 /\ hi < fmax_of (halved j s)) /\
     ((length (halved (S k) s) <= 1)%nat /\ e = ValueError \/ (2 <= length (halved (S k) s))%nat /\ step_of (halved (S k) s) = 0 /\ e = ZeroDivisionError)).
Proof.
  induction fuel as [|fuel IH]; intros s e Hf Hn Hs; [lia|]. cbn [downsample].
  change (fg_fmax (grid_of s)) with (fmax_of s). destruct (Rltb_spec hi (fmax_of s)) as [C|C].
  - destruct (Nat.leb_spec (length (every_other s)) 1) as [C1|C1].
    { split.
      - intros E. injection E as <-. exists O. split; [intros j Hj; replace j with O by lia; cbn; auto|]. left. split; [exact C1 | reflexivity].
      - intros (k & H1 & H2). destruct k as [|k].
        + destruct H2 as [[_ ->]|[H2 _]]; [reflexivity|]. cbn in H2. lia.
        + destruct (H1 1%nat ltac:(lia)) as [H3 _]. cbn in H3. lia. }
    rewrite get_freq_interval_eq. destruct (Nat.leb_spec (length (every_other s)) 1); [lia|].
    destruct (Reqb_spec (step_of (every_other s)) 0) as [C2|C2]; cbn [bind].
    { split.
      - intros E. injection E as <-. exists O. split; [intros j Hj; replace j with O by lia; cbn; auto|]. right. cbn. auto.
      - intros (k & H1 & H2). destruct k as [|k].
        + destruct H2 as [[H2 _]|[_ [_ ->]]]; [cbn in H2; lia | reflexivity].
        + destruct (H1 1%nat ltac:(lia)) as [_ [H3 _]]. cbn in H3. congruence. }
    rewrite IH; auto.
    2:{ rewrite every_other_length. pose proof (half_lt _ Hn). lia. }
    split; intros (k & H1 & H2).
    + exists (S k). rewrite halved_S in H2. split; [|exact H2]. intros j Hj. destruct j as [|j]; [cbn; auto|]. rewrite <- halved_S. apply H1. lia.
    + destruct k as [|k].
      { exfalso. destruct H2 as [[H2 _]|[_ [H2 _]]]; cbn in H2; [lia | congruence]. }
      exists k. split; [|rewrite halved_S; exact H2]. intros j Hj. rewrite halved_S. apply H1. lia.
  - split; [discriminate|]. intros (k & H1 & _). destruct (H1 O ltac:(lia)) as [_ [_ H]]. cbn in H. lra.
Qed.

(** ** Extremes *)
Lemma fold_Rmax_spec l : forall x, (x <= fold_left Rmax l x) /\ (forall y, In y l -> y <= fold_left Rmax l x) /\ (fold_left Rmax l x = x \/ In (fold_left Rmax l x) l).
Proof.
  induction l as [|y l IH]; intros x; cbn [fold_left].
  - split; [lra|]. split; [intros y []|left; reflexivity].
  - destruct (IH (Rmax x y)) as (H1 & H2 & H3). pose proof (Rmax_l x y). pose proof (Rmax_r x y). split; [lra|]. split.
    + intros z [<-|Hz]; [lra | apply H2, Hz].
    + destruct H3 as [E|H3]; [|right; right; exact H3]. rewrite E. unfold Rmax. destruct (Rle_dec x y); [right; left; reflexivity | left; reflexivity].
Qed.
Lemma fold_Rmin_spec l : forall x, (fold_left Rmin l x <= x) /\ (forall y, In y l -> fold_left Rmin l x <= y) /\ (fold_left Rmin l x = x \/ In (fold_left Rmin l x) l).
Proof.
  induction l as [|y l IH]; intros x; cbn [fold_left].
  - split; [lra|]. split; [intros y []|left; reflexivity].
  - destruct (IH (Rmin x y)) as (H1 & H2 & H3). pose proof (Rmin_l x y). pose proof (Rmin_r x y). split; [lra|]. split.
    + intros z [<-|Hz]; [lra | apply H2, Hz].
    + destruct H3 as [E|H3]; [|right; right; exact H3]. rewrite E. unfold Rmin. destruct (Rle_dec x y); [left; reflexivity | right; left; reflexivity].
Qed.
Lemma rmax1_spec l m : l <> [] -> exists M, rmax1 l = Ok M /\ (M < m <-> forall y, In y l -> y < m).
Proof.
  destruct l as [|x l]; [congruence|]. intros _. cbn [rmax1]. exists (fold_left Rmax l x). split; [reflexivity|]. destruct (fold_Rmax_spec l x) as (H1 & H2 & H3). split.
  - intros H y [<-|Hy]; [lra | specialize (H2 y Hy); lra].
  - intros H. destruct H3 as [->|H3]; [apply H; left; reflexivity | apply H; right; exact H3].
Qed.
Lemma rmin1_spec l m : l <> [] -> exists M, rmin1 l = Ok M /\ (m < M <-> forall y, In y l -> m < y).
Proof.
  destruct l as [|x l]; [congruence|]. intros _. cbn [rmin1]. exists (fold_left Rmin l x). split; [reflexivity|]. destruct (fold_Rmin_spec l x) as (H1 & H2 & H3). split.
  - intros H y [<-|Hy]; [lra | specialize (H2 y Hy); lra].
  - intros H. destruct H3 as [->|H3]; [apply H; left; reflexivity | apply H; right; exact H3].
Qed.
