(** C22: response spectra. *)
From Coq Require Import Reals List Bool ZArith Lia Lra Psatz.
From Coquelicot Require Import Coquelicot.
From Coq Require Import List.
From Verif Require Import Base M_generic M_motion M_soil M_interp P_interp M_vs_profile P_vs_profile M_pool M_spectra P_spectra.
Import ListNotations.
Open Scope R_scope.

(** ** Specification *)

(** [m] is the largest absolute value of [f 0 .. f (n-1)]. *)
Definition peak_of (f : nat -> R) (n : nat) (m : R) : Prop :=
  (forall k, (k < n)%nat -> Rabs (f k) <= m) /\ exists k, (k < n)%nat /\ Rabs (f k) = m.

(** [u] (relative displacement) and [v] (relative velocity) of an oscillator of
    circular frequency [w] and damping ratio [xi], at rest at time 0, on a ground whose
    acceleration is the polygon through the samples [a], [dt] apart. *)
Definition shaken (w xi dt : R) (a : list R) (u v : R -> R) : Prop :=
  u 0 = 0 /\ v 0 = 0 /\
  (forall k t, (S k < length a)%nat -> INR k * dt <= t <= INR k * dt + dt -> continuity_pt u t /\ continuity_pt v t) /\
  (forall k t, (S k < length a)%nat -> INR k * dt < t < INR k * dt + dt ->
     is_derive u t (v t) /\
     is_derive v t (- (2 * xi * w * v t + w * w * u t
        + (nth k a 0 + (nth (S k) a 0 - nth k a 0) * ((t - INR k * dt) / dt))))).

(** ** The recursion samples the exact motion *)
Lemma shaken_samples w xi dt a u v : 0 < w -> 0 <= xi < 1 -> 0 < dt -> shaken w xi dt a u v ->
  forall k, (k < length a)%nat -> nth k (march (chopra w xi dt) (0, 0) a) (0, 0) = (u (INR k * dt), v (INR k * dt)).
Proof.
  intros Hw Hxi Hdt (Hu & Hv & HC & HD). induction k as [|k IH]; intros Hk.
  - rewrite march_0 by auto. cbn [INR]. rewrite Rmult_0_l, Hu, Hv. reflexivity.
  - rewrite march_S by auto. rewrite IH by lia. symmetry.
    rewrite S_INR. replace ((INR k + 1) * dt) with (INR k * dt + dt) by ring.
    apply step_exact; auto. split.
    + intros t Ht. apply (HC k); auto.
    + intros t Ht. apply (HD k); auto.
Qed.

Lemma shaken_exists_upto w xi dt a : 0 < w -> 0 <= xi < 1 -> 0 < dt -> forall m, (m < length a)%nat ->
  exists u v, u 0 = 0 /\ v 0 = 0 /\
  (forall t, continuity_pt u t /\ continuity_pt v t) /\
  (forall k t, (k < m)%nat -> INR k * dt < t < INR k * dt + dt ->
     is_derive u t (v t) /\
     is_derive v t (- (2 * xi * w * v t + w * w * u t
        + (nth k a 0 + (nth (S k) a 0 - nth k a 0) * ((t - INR k * dt) / dt))))).
Proof.
  intros Hw Hxi Hdt. induction m as [|m IH]; intros Hm.
  - exists (fun _ => 0), (fun _ => 0). repeat split; auto; try (apply continuity_pt_const; intros ? ?; reflexivity); lia.
  - destruct IH as (u & v & Hu & Hv & HC & HD); [lia|].
    set (c := INR m * dt).
    assert (Hc : 0 <= c) by (unfold c; pose proof (pos_INR m); nra).
    set (su := fun t => usol w xi dt (u c) (v c) (nth m a 0) (nth (S m) a 0) (t - c)).
    set (sv := fun t => vsol w xi dt (u c) (v c) (nth m a 0) (nth (S m) a 0) (t - c)).
    assert (Hmv : forall lo' hi', c <= lo' -> lo' < hi' -> True) by auto.
    pose proof (sol_moves w xi dt (u c) (v c) (nth m a 0) (nth (S m) a 0) c Hw Hxi Hdt) as HM. fold su sv in HM.
    assert (Hsm : forall t, continuity_pt su t /\ continuity_pt sv t).
    { intros t. assert (Hsh : forall (f : R -> R) (l : R), is_derive f (t - c) l -> continuity_pt (fun t => f (t - c)) t).
      { intros f l H. apply (continuity_pt_comp (fun t => t - c) f).
        - apply continuity_pt_minus; [apply derivable_continuous_pt, derivable_pt_id|apply continuity_pt_const; intros ? ?; reflexivity].
        - eapply derive_cont, H. }
      split; [eapply (Hsh (usol _ _ _ _ _ _ _)); apply usol_derive; auto|eapply (Hsh (vsol _ _ _ _ _ _ _)); apply vsol_derive; auto]. }
    assert (Esu : u c = su c) by (unfold su; rewrite Rminus_eq_0, usol_0; reflexivity).
    assert (Esv : v c = sv c) by (unfold sv; rewrite Rminus_eq_0, vsol_0; reflexivity).
    exists (fun t => if Rle_dec t c then u t else su t), (fun t => if Rle_dec t c then v t else sv t).
    split; [destruct (Rle_dec 0 c); [exact Hu|contradiction]|].
    split; [destruct (Rle_dec 0 c); [exact Hv|contradiction]|].
    assert (G : forall f g : R -> R, (forall t, continuity_pt f t) -> (forall t, continuity_pt g t) -> f c = g c ->
      forall t, continuity_pt (fun t => if Rle_dec t c then f t else g t) t).
    { intros f g Hf Hg E t. destruct (Rtotal_order t c) as [Hlt|[->|Hgt]].
      - eapply cont_ext; [|apply (Hf t)]. eapply filter_imp; [|apply (loc_lt t c Hlt)].
        cbn. intros x Hx. destruct (Rle_dec x c); [reflexivity|contradiction].
      - apply glue_cont; auto.
      - eapply cont_ext; [|apply (Hg t)]. eapply filter_imp; [|apply (loc_gt t c Hgt)].
        cbn. intros x Hx. destruct (Rle_dec x c); [contradiction|reflexivity]. }
    split.
    { intros t. split; apply G; auto; intros; try apply HC; apply Hsm. }
    intros k t Hk Ht. destruct (Nat.eq_dec k m) as [->|Hne].
    + fold c in Ht. assert (Hgt : c < t) by lra.
      destruct (Rle_dec t c) as [Hle|_]; [lra|]. destruct HM as [_ HM]. destruct (HM t) as [M1 M2]; [lra|].
      split.
      * eapply is_derive_ext_loc; [|exact M1]. eapply filter_imp; [|apply (loc_gt t c Hgt)].
        cbn. intros x Hx. destruct (Rle_dec x c); [contradiction|reflexivity].
      * eapply is_derive_ext_loc; [|exact M2]. eapply filter_imp; [|apply (loc_gt t c Hgt)].
        cbn. intros x Hx. destruct (Rle_dec x c); [contradiction|reflexivity].
    + assert (Hlt : t < c).
      { unfold c. assert (INR k + 1 <= INR m) by (rewrite <- S_INR; apply le_INR; lia). nra. }
      destruct (Rle_dec t c) as [_|Hn]; [|lra]. destruct (HD k t) as [M1 M2]; [lia|exact Ht|].
      split.
      * eapply is_derive_ext_loc; [|exact M1]. eapply filter_imp; [|apply (loc_lt t c Hlt)].
        cbn. intros x Hx. destruct (Rle_dec x c); [reflexivity|contradiction].
      * eapply is_derive_ext_loc; [|exact M2]. eapply filter_imp; [|apply (loc_lt t c Hlt)].
        cbn. intros x Hx. destruct (Rle_dec x c); [reflexivity|contradiction].
Qed.

Lemma shaken_exists w xi dt a : 0 < w -> 0 <= xi < 1 -> 0 < dt -> exists u v, shaken w xi dt a u v.
Proof.
  intros Hw Hxi Hdt. destruct a as [|a0 a'].
  - exists (fun _ => 0), (fun _ => 0). repeat split; auto; cbn in *; lia.
  - set (a := a0 :: a'). destruct (shaken_exists_upto w xi dt a Hw Hxi Hdt (length a - 1)) as (u & v & H1 & H2 & H3 & H4).
    { unfold a; cbn; lia. }
    exists u, v. split; [exact H1|]. split; [exact H2|]. split.
    + intros k t _ _. apply H3.
    + intros k t Hk. apply H4. lia.
Qed.

(** ** Outcomes *)
(** Time [i] of the record taken every [k] samples. *)
Definition Tk (s : signal) (k i : nat) : R := nth (i * k) (times s) 0.
(** The periods of the spectra. *)
Definition period (Tmin Tmax : R) (n i : nat) : R := nth i (logspace (log10 Tmin) (log10 Tmax) n) 0.

Lemma nth_combine2 {A B} : forall i (l : list A) (m : list B) x y, (i < length l)%nat -> (i < length m)%nat ->
  nth i (combine l m) (x, y) = (nth i l x, nth i m y).
Proof.
  induction i as [|i IH]; intros [|a l] [|b m] x y H1 H2; cbn in *; try lia; [reflexivity|]. apply IH; lia.
Qed.
Lemma time_steps_nth t : forall d, In d (time_steps t) <-> exists i, (S i < length t)%nat /\ d = nth (S i) t 0 - nth i t 0.
Proof.
  intros d. unfold time_steps. rewrite in_map_iff. split.
  - intros ((x & y) & <- & H). cbn [fst snd]. apply (In_nth _ _ (0, 0)) in H as (i & Hi & E).
    rewrite combine_length in Hi. assert (Ht : length (tl t) = (length t - 1)%nat) by (destruct t; cbn; lia).
    exists i. split; [lia|]. rewrite nth_combine2 in E by lia. injection E as <- <-.
    f_equal. destruct t; [cbn in Hi; lia|reflexivity].
  - intros (i & Hi & ->). assert (Ht : length (tl t) = (length t - 1)%nat) by (destruct t; cbn; lia).
    exists (nth i t 0, nth (S i) t 0). split; [reflexivity|].
    assert (E : nth i (combine t (tl t)) (0, 0) = (nth i t 0, nth (S i) t 0)).
    { rewrite nth_combine2 by lia. f_equal. destruct t; [cbn in Hi; lia|reflexivity]. }
    rewrite <- E. apply nth_In. rewrite combine_length. lia.
Qed.

Definition even_enough (s : signal) (k : nat) : Prop :=
  forall i, (S i * k < length s)%nat -> (Tk s k (S i) - Tk s k i) - (Tk s k 1 - Tk s k 0) < 1 / 10000000.

Lemma even_check s k : (0 < k)%nat -> (k < length s)%nat ->
  forallb (fun d => Rltb (d - (Tk s k 1 - Tk s k 0)) (1 / 10000000)) (time_steps (every k (times s))) = true
  <-> even_enough s k.
Proof.
  intros Hk HL. rewrite forallb_forall. unfold even_enough. split.
  - intros H i Hi. apply Rltb_true. apply H. apply time_steps_nth. exists i. split.
    + apply every_lt; auto. unfold times. rewrite map_length. exact Hi.
    + rewrite !every_nth by auto. reflexivity.
  - intros H d Hd. apply time_steps_nth in Hd as (i & Hi & ->). apply Rltb_true. rewrite !every_nth by auto.
    apply H. apply every_lt in Hi; auto. unfold times in Hi. rewrite map_length in Hi. exact Hi.
Qed.

(** The row computed for one period. *)
Definition row (s : signal) (k : nat) (xi T : R) : peaks :=
  time_stepping (2 * PI / T) xi (Tk s k 1 - Tk s k 0) (every k (vals s)).

Lemma response_eq s Tmin Tmax n xi k par : (0 < k)%nat -> (0 < n)%nat -> (k < length s)%nat -> even_enough s k ->
  response_spectra s Tmin Tmax n xi k par =
  Ok (mkspectra (logspace (log10 Tmin) (log10 Tmax) n)
       (run_periods (fun w => time_stepping w xi (Tk s k 1 - Tk s k 0) (every k (vals s)))
          (map (fun T => 2 * PI / T) (logspace (log10 Tmin) (log10 Tmax) n)) par)
       (map (fun T => 1 / T) (logspace (log10 Tmin) (log10 Tmax) n))).
Proof.
  intros Hk Hn HL He. unfold response_spectra. destruct (Nat.eqb_spec k 0); [lia|].
  assert (H1 : (1 < length (every k (times s)))%nat) by (apply every_lt; auto; unfold times; rewrite map_length; lia).
  rewrite (get_ok _ 1 0 H1), (get_ok _ 0 0) by lia. cbn [bind]. rewrite !every_nth by auto.
  fold (Tk s k 1) (Tk s k 0). rewrite (proj2 (even_check s k Hk HL) He). cbn [negb].
  destruct (Nat.eqb_spec n 0); [lia|]. reflexivity.
Qed.

(** Accepted exactly when the subsampled record has two samples, no step exceeds the
    first by 1e-7 s or more, and at least one period is asked for. *)
Theorem C22_accepts_iff : forall s Tmin Tmax n xi k par,
  (exists r, response_spectra s Tmin Tmax n xi k par = Ok r) <->
  (0 < k)%nat /\ (0 < n)%nat /\ (k < length s)%nat /\ even_enough s k.
Proof.
  intros s Tmin Tmax n xi k par. split.
  - intros (r & E). unfold response_spectra in E. destruct (Nat.eqb_spec k 0); [discriminate|].
    assert (Hk : (0 < k)%nat) by lia.
    destruct (Nat.lt_ge_cases k (length s)) as [HL|HL].
    2:{ rewrite get_err in E; [discriminate|].
        destruct (Nat.le_gt_cases (length (every k (times s))) 1) as [H|H]; [exact H|].
        apply every_lt in H; auto. unfold times in H. rewrite map_length in H. lia. }
    assert (H1 : (1 < length (every k (times s)))%nat) by (apply every_lt; auto; unfold times; rewrite map_length; lia).
    rewrite (get_ok _ 1 0 H1), (get_ok _ 0 0) in E by lia. cbn [bind] in E. rewrite !every_nth in E by auto.
    fold (Tk s k 1) (Tk s k 0) in E.
    destruct (forallb _ _) eqn:EF in E; cbn [negb] in E; [|discriminate].
    apply even_check in EF; auto. destruct (Nat.eqb_spec n 0); [discriminate|]. repeat split; auto; lia.
  - intros (Hk & Hn & HL & He). eexists. apply response_eq; auto.
Qed.

(** Which error is raised otherwise. *)
Theorem C22_errors : forall s Tmin Tmax n xi k par e,
  response_spectra s Tmin Tmax n xi k par = Err e ->
  (e = IndexError <-> (0 < k)%nat /\ (length s <= k)%nat) /\
  (e = ValueError <-> k = 0%nat \/ (k < length s)%nat /\ (n = 0%nat \/ ~ even_enough s k)).
Proof.
  intros s Tmin Tmax n xi k par e E. unfold response_spectra in E. destruct (Nat.eqb_spec k 0) as [->|Hk0].
  { injection E as <-. split; split; intros H; try discriminate; auto; lia. }
  assert (Hk : (0 < k)%nat) by lia.
  destruct (Nat.lt_ge_cases k (length s)) as [HL|HL].
  - assert (H1 : (1 < length (every k (times s)))%nat) by (apply every_lt; auto; unfold times; rewrite map_length; lia).
    rewrite (get_ok _ 1 0 H1), (get_ok _ 0 0) in E by lia. cbn [bind] in E. rewrite !every_nth in E by auto.
    fold (Tk s k 1) (Tk s k 0) in E.
    destruct (forallb _ _) eqn:EF in E; cbn [negb] in E.
    + destruct (Nat.eqb_spec n 0) as [->|]; [|discriminate]. injection E as <-.
      split; split; intros H; try discriminate; auto; lia.
    + injection E as <-. split; split; intros H; try discriminate; try lia; auto.
      right. split; [exact HL|]. right. intros He. apply even_check in He; auto. congruence.
  - rewrite get_err in E.
    + injection E as <-. split; split; intros H; try discriminate; auto; lia.
    + destruct (Nat.le_gt_cases (length (every k (times s))) 1) as [H|H]; [exact H|].
      apply every_lt in H; auto. unfold times in H. rewrite map_length in H. lia.
Qed.

(** The even-spacing check is one-sided: a record whose steps shrink is accepted and
    processed as if the first step applied throughout. *)
Theorem C22_even_spacing_refuted : exists s r, response_spectra s (1/100) 10 60 (5/100) 1 None = Ok r /\
  Tk s 1 1 - Tk s 1 0 = 1 /\ Tk s 1 2 - Tk s 1 1 = 1 / 2.
Proof.
  set (s := [(0, 0); (1, 1); (3/2, 0)] : signal).
  destruct (proj2 (C22_accepts_iff s (1/100) 10 60 (5/100) 1 None)) as (r & E).
  - repeat split; try (cbn; lia). intros i Hi. unfold Tk, s in *. cbn in Hi.
    destruct i as [|[|i]]; cbn; try lra. lia.
  - exists s, r. split; [exact E|]. unfold Tk, s; cbn. lra.
Qed.

(** The periods. *)
Theorem C22_periods : forall s Tmin Tmax n xi k par r, 0 < Tmin -> 0 < Tmax ->
  response_spectra s Tmin Tmax n xi k par = Ok r ->
  length (s_Tn r) = n /\ length (s_fn r) = n /\
  nth 0 (s_Tn r) 0 = Tmin /\ ((2 <= n)%nat -> nth (n - 1) (s_Tn r) 0 = Tmax) /\
  (forall i, (i < n)%nat -> 0 < nth i (s_Tn r) 0 /\ nth i (s_fn r) 0 = 1 / nth i (s_Tn r) 0) /\
  (forall i, (S (S i) < n)%nat -> nth (S (S i)) (s_Tn r) 0 * nth i (s_Tn r) 0 = nth (S i) (s_Tn r) 0 * nth (S i) (s_Tn r) 0) /\
  (Tmin < Tmax -> forall i, (S i < n)%nat -> nth i (s_Tn r) 0 < nth (S i) (s_Tn r) 0).
Proof.
  intros s Tmin Tmax n xi k par r HT1 HT2 E.
  destruct (proj1 (C22_accepts_iff s Tmin Tmax n xi k par) (ex_intro _ r E)) as (Hk & Hn & HL & He).
  rewrite response_eq in E by auto. injection E as <-. cbn [s_Tn s_fn].
  assert (Hln : 0 < ln 10) by (rewrite <- ln_1; apply ln_increasing; lra).
  assert (Hlog : forall x, 0 < x -> Rpower 10 (log10 x) = x).
  { intros x Hx. unfold log10, Rpower. replace (ln x / ln 10 * ln 10) with (ln x) by (field; lra). apply exp_ln, Hx. }
  assert (Hlen : length (logspace (log10 Tmin) (log10 Tmax) n) = n).
  { unfold logspace. rewrite map_length. apply linspace_length. }
  assert (Hnth : forall i, (i < n)%nat -> nth i (logspace (log10 Tmin) (log10 Tmax) n) 0
     = Rpower 10 (nth i (linspace (log10 Tmin) (log10 Tmax) n) 0)).
  { intros i Hi. unfold logspace. rewrite (nth_indep _ 0 (Rpower 10 0)) by (rewrite map_length, linspace_length; exact Hi).
    apply (map_nth (fun e => Rpower 10 e)). }
  assert (Hpos : forall i, (i < n)%nat -> 0 < nth i (logspace (log10 Tmin) (log10 Tmax) n) 0).
  { intros i Hi. rewrite Hnth by auto. unfold Rpower. apply exp_pos. }
  split; [exact Hlen|]. split; [rewrite map_length; exact Hlen|]. split.
  { rewrite Hnth by auto. destruct (Nat.eq_dec n 1) as [->|Hn1].
    - cbn. apply Hlog, HT1.
    - rewrite linspace_nth' by lia. cbn [INR]. rewrite Rmult_0_l, Rplus_0_r. apply Hlog, HT1. }
  split.
  { intros Hn2. rewrite Hnth, linspace_nth' by lia.
    replace (log10 Tmin + INR (n - 1) * ((log10 Tmax - log10 Tmin) / INR (n - 1))) with (log10 Tmax); [apply Hlog, HT2|].
    field. apply not_0_INR. lia. }
  split.
  { intros i Hi. split; [apply Hpos, Hi|].
    rewrite (nth_indep _ 0 (1 / 0)) by (rewrite map_length, Hlen; exact Hi). apply (map_nth (fun T => 1 / T)). }
  split.
  { intros i Hi. rewrite !Hnth, !linspace_nth' by lia. rewrite <- !Rpower_plus. f_equal. rewrite !S_INR. field. apply not_0_INR. lia. }
  intros Hlt i Hi. rewrite !Hnth, !linspace_nth' by lia. apply Rpower_lt; [lra|].
  rewrite S_INR.
  assert (log10 Tmin < log10 Tmax).
  { unfold log10. apply Rmult_lt_compat_r; [apply Rinv_0_lt_compat; lra|]. apply ln_increasing; lra. }
  assert (0 < (log10 Tmax - log10 Tmin) / INR (n - 1)).
  { apply Rdiv_lt_0_compat; [lra|]. apply lt_0_INR. lia. }
  lra.
Qed.

(** Serial run, or a pool in which every task finishes exactly once. *)
Definition completes (n : nat) (par : option (list nat)) : Prop :=
  match par with None => True | Some order => schedule n order end.

Lemma response_rows s Tmin Tmax n xi k par r : completes n par ->
  response_spectra s Tmin Tmax n xi k par = Ok r ->
  s_rows r = map (fun T => Some (row s k xi T)) (s_Tn r) /\ length (s_Tn r) = n.
Proof.
  intros Hc E.
  destruct (proj1 (C22_accepts_iff s Tmin Tmax n xi k par) (ex_intro _ r E)) as (Hk & Hn & HL & He).
  rewrite response_eq in E by auto. injection E as <-. cbn [s_Tn s_rows].
  assert (Hlen : length (logspace (log10 Tmin) (log10 Tmax) n) = n).
  { unfold logspace. rewrite map_length. apply linspace_length. }
  split; [|exact Hlen]. unfold run_periods. destruct par as [order|].
  - rewrite pool_map_serial by (rewrite map_length, Hlen; exact Hc). rewrite map_map. reflexivity.
  - rewrite map_map. reflexivity.
Qed.

(** The pool gives what the serial loop gives, whatever the completion order. *)
Theorem C22_parallel : forall s Tmin Tmax n xi k order, schedule n order ->
  response_spectra s Tmin Tmax n xi k (Some order) = response_spectra s Tmin Tmax n xi k None.
Proof.
  intros s Tmin Tmax n xi k order Ho. unfold response_spectra, run_periods.
  destruct (Nat.eqb k 0); [reflexivity|]. destruct (get _ 1); [|reflexivity]. destruct (get _ 0); [|reflexivity].
  cbn [bind]. rewrite pool_map_serial; [reflexivity|].
  rewrite map_length. unfold logspace. rewrite map_length, linspace_length. exact Ho.
Qed.

(** Each row is the one a call for that single period returns. *)
Theorem C22_period_alone : forall s Tmin Tmax n xi k par r i, completes n par ->
  response_spectra s Tmin Tmax n xi k par = Ok r -> (i < n)%nat ->
  exists r1, response_spectra s (nth i (s_Tn r) 0) (nth i (s_Tn r) 0) 1 xi k None = Ok r1 /\
    s_rows r1 = [nth i (s_rows r) None].
Proof.
  intros s Tmin Tmax n xi k par r i Hc E Hi.
  destruct (proj1 (C22_accepts_iff s Tmin Tmax n xi k par) (ex_intro _ r E)) as (Hk & Hn & HL & He).
  destruct (response_rows _ _ _ _ _ _ _ _ Hc E) as [HR HT].
  set (T := nth i (s_Tn r) 0).
  assert (HTpos : 0 < T).
  { unfold T. rewrite response_eq in E by auto. injection E as <-. cbn [s_Tn]. unfold logspace.
    rewrite (nth_indep _ 0 (Rpower 10 0)) by (rewrite map_length, linspace_length; exact Hi).
    rewrite (map_nth (fun e => Rpower 10 e)). unfold Rpower. apply exp_pos. }
  destruct (proj2 (C22_accepts_iff s T T 1 xi k None)) as (r1 & E1); [repeat split; auto|].
  exists r1. split; [exact E1|]. destruct (response_rows s T T 1 xi k None r1 I E1) as [HR1 HT1].
  assert (HTn : s_Tn r1 = [T]).
  { rewrite response_eq in E1 by auto. injection E1 as <-. cbn [s_Tn].
    unfold logspace. cbn [linspace seq map]. unfold linspace; cbn [seq map Nat.eqb]. f_equal.
    unfold log10, Rpower.
    assert (Hln : 0 < ln 10) by (rewrite <- ln_1; apply ln_increasing; lra).
    replace (ln T / ln 10 * ln 10) with (ln T) by (field; lra). apply exp_ln, HTpos. }
  rewrite HR1, HTn, HR. cbn [map]. f_equal. unfold T.
  rewrite (nth_indep _ None (Some (row s k xi 0))) by (rewrite map_length, HT; exact Hi).
  symmetry. apply (map_nth (fun T => Some (row s k xi T))).
Qed.

(** ** Oscillator identities *)
Lemma nth_row s Tmin Tmax n xi k par r i : completes n par ->
  response_spectra s Tmin Tmax n xi k par = Ok r -> (i < n)%nat ->
  nth i (s_rows r) None = Some (row s k xi (nth i (s_Tn r) 0)).
Proof.
  intros Hc E Hi. destruct (response_rows _ _ _ _ _ _ _ _ Hc E) as [HR HT]. rewrite HR.
  rewrite (nth_indep _ None (Some (row s k xi 0))) by (rewrite map_length, HT; exact Hi).
  apply (map_nth (fun T => Some (row s k xi T))).
Qed.

Theorem C22_identities : forall s Tmin Tmax n xi k par r i, 0 < Tmin -> 0 < Tmax -> completes n par ->
  response_spectra s Tmin Tmax n xi k par = Ok r -> (i < n)%nat ->
  exists p, nth i (s_rows r) None = Some p /\
    let w := 2 * PI / nth i (s_Tn r) 0 in
    0 <= p_SD p /\ 0 <= p_SV p /\ 0 <= p_SA p /\ 0 <= p_PSV p /\ 0 <= p_PSA p /\
    p_PSV p = w * p_SD p /\ p_PSA p = w * w * p_SD p.
Proof.
  intros s Tmin Tmax n xi k par r i HT1 HT2 Hc E Hi. eexists. split; [eapply nth_row; eauto|]. intros w.
  destruct (C22_periods _ _ _ _ _ _ _ _ HT1 HT2 E) as (_ & _ & _ & _ & HP & _).
  destruct (HP i Hi) as [HTi _].
  assert (Hw : 0 < w) by (apply Rdiv_lt_0_compat; [pose proof PI_RGT_0; lra|exact HTi]).
  unfold row. fold w. unfold time_stepping. cbn [p_SD p_SV p_SA p_PSV p_PSA].
  pose proof max_abs_nonneg as HN. repeat split; try apply HN; try ring.
  - apply Rmult_le_pos; [apply HN|lra].
  - apply Rmult_le_pos; [apply Rmult_le_pos; [apply HN|lra]|lra].
Qed.

(** The total acceleration at a sample. *)
Lemma utdd_eq w xi (uv : list (R * R)) : forall a, length uv = length a ->
  map (fun p => fst p + snd p)
    (combine (map (fun p => - (2 * w * xi * snd (fst p) + w * w * fst (fst p) + snd p)) (combine uv a)) a)
  = map (fun q => - (2 * xi * w * snd q + w * w * fst q)) uv.
Proof.
  induction uv as [|q uv IH]; intros [|x a] H; cbn in *; try discriminate; [reflexivity|].
  f_equal; [ring|]. apply IH. lia.
Qed.

Lemma max_abs_peak (l : list R) (f : nat -> R) : l <> [] -> (forall k, (k < length l)%nat -> nth k l 0 = f k) ->
  peak_of f (length l) (max_abs l).
Proof.
  intros Hne H. split.
  - intros k Hk. rewrite <- H by auto. apply max_abs_ge, nth_In, Hk.
  - destruct (max_abs_in l Hne) as (x & Hx & E). apply (In_nth _ _ 0) in Hx as (k & Hk & Ek).
    exists k. split; [exact Hk|]. rewrite <- H, Ek by auto. symmetry; exact E.
Qed.

(** The spectral ordinates are the largest sampled displacement, velocity and total
    acceleration of the exact motion of the oscillator on the polygonal ground motion;
    such a motion exists and its samples are unique. *)
Theorem C22_exact : forall s Tmin Tmax n xi k par r i, 0 < Tmin -> 0 < Tmax -> 0 <= xi < 1 -> completes n par ->
  response_spectra s Tmin Tmax n xi k par = Ok r -> (i < n)%nat ->
  let dt := Tk s k 1 - Tk s k 0 in
  let a := every k (vals s) in
  let w := 2 * PI / nth i (s_Tn r) 0 in
  0 < dt ->
  exists p, nth i (s_rows r) None = Some p /\
    (exists u v, shaken w xi dt a u v) /\
    forall u v, shaken w xi dt a u v ->
      peak_of (fun j => u (INR j * dt)) (length a) (p_SD p) /\
      peak_of (fun j => v (INR j * dt)) (length a) (p_SV p) /\
      peak_of (fun j => 2 * xi * w * v (INR j * dt) + w * w * u (INR j * dt)) (length a) (p_SA p).
Proof.
  intros s Tmin Tmax n xi k par r i HT1 HT2 Hxi Hc E Hi dt a w Hdt.
  destruct (C22_periods _ _ _ _ _ _ _ _ HT1 HT2 E) as (_ & _ & _ & _ & HP & _).
  destruct (HP i Hi) as [HTi _].
  assert (Hw : 0 < w) by (apply Rdiv_lt_0_compat; [pose proof PI_RGT_0; lra|exact HTi]).
  destruct (proj1 (C22_accepts_iff s Tmin Tmax n xi k par) (ex_intro _ r E)) as (Hk & _ & HL & _).
  eexists. split; [eapply nth_row; eauto|]. split; [apply shaken_exists; auto|].
  intros u v Hs. unfold row. fold w a dt.
  assert (Ha : (0 < length a)%nat) by (unfold a; apply every_lt; auto; unfold vals; rewrite map_length; lia).
  pose proof (shaken_samples w xi dt a u v Hw Hxi Hdt Hs) as HS.
  unfold time_stepping. cbn [p_SD p_SV p_SA].
  set (uv := march (chopra w xi dt) (0, 0) a) in *.
  assert (Luv : length uv = length a) by apply march_length.
  assert (Huv : uv <> []) by (destruct uv; cbn in Luv; [lia|discriminate]).
  rewrite utdd_eq by exact Luv.
  assert (G : forall (F : R * R -> R) (f : nat -> R), (forall j, F (u (INR j * dt), v (INR j * dt)) = f j) ->
     peak_of f (length a) (max_abs (map F uv))).
  { intros F f HF. rewrite <- Luv. rewrite <- (map_length F uv). apply max_abs_peak.
    - destruct uv; [congruence|discriminate].
    - intros j Hj. rewrite map_length in Hj. rewrite (nth_indep _ 0 (F (0, 0))) by (rewrite map_length; exact Hj).
      rewrite (map_nth F), HS by lia. apply HF. }
  split; [apply (G fst); reflexivity|]. split; [apply (G snd); reflexivity|].
  replace (max_abs (map (fun q => - (2 * xi * w * snd q + w * w * fst q)) uv))
    with (max_abs (map (fun q => 2 * xi * w * snd q + w * w * fst q) uv)).
  - apply (G (fun q => 2 * xi * w * snd q + w * w * fst q)). reflexivity.
  - unfold max_abs. rewrite !map_map. f_equal. apply map_ext. intros q. symmetry. apply Rabs_Ropp.
Qed.

(** ** Scaling *)
Definition scaled (c : R) (s : signal) : signal := map (fun p => (fst p, c * snd p)) s.
Definition scale_peaks (c : R) (p : peaks) : peaks :=
  mkpeaks (c * p_SA p) (c * p_SV p) (c * p_SD p) (c * p_PSA p) (c * p_PSV p).

Lemma scaled_times c s : times (scaled c s) = times s.
Proof. unfold times, scaled. rewrite map_map. reflexivity. Qed.
Lemma scaled_vals c s : vals (scaled c s) = map (fun x => c * x) (vals s).
Proof. unfold vals, scaled. rewrite !map_map. reflexivity. Qed.

Lemma time_stepping_scal w xi dt c a : time_stepping w xi dt (map (fun x => c * x) a)
  = scale_peaks (Rabs c) (time_stepping w xi dt a).
Proof.
  unfold time_stepping. pose proof (march_scal (chopra w xi dt) c a (0, 0)) as HM. cbn [fst snd] in HM.
  rewrite !Rmult_0_r in HM. rewrite HM. set (uv := march (chopra w xi dt) (0, 0) a).
  assert (Luv : length uv = length a) by apply march_length.
  rewrite !utdd_eq by (rewrite ?map_length; exact Luv). rewrite !map_map. cbn [fst snd].
  unfold scale_peaks. cbn [p_SA p_SV p_SD p_PSA p_PSV].
  rewrite <- !(map_map fst (fun x => c * x)), <- !(map_map snd (fun x => c * x)), !max_abs_scal.
  replace (map (fun x => - (2 * xi * w * (c * snd x) + w * w * (c * fst x))) uv)
    with (map (fun x => c * x) (map (fun q => - (2 * xi * w * snd q + w * w * fst q)) uv)).
  2:{ rewrite map_map. apply map_ext. intros q. ring. }
  rewrite max_abs_scal. f_equal; ring.
Qed.

(** The record times [c] has [|c|] times the spectra; acceptance does not change. *)
Theorem C22_scales : forall c s Tmin Tmax n xi k par, completes n par ->
  match response_spectra s Tmin Tmax n xi k par, response_spectra (scaled c s) Tmin Tmax n xi k par with
  | Ok r, Ok r' => s_Tn r' = s_Tn r /\ s_fn r' = s_fn r /\
      forall i, (i < n)%nat -> exists p, nth i (s_rows r) None = Some p /\
         nth i (s_rows r') None = Some (scale_peaks (Rabs c) p)
  | Err e, Err e' => e = e'
  | _, _ => False
  end.
Proof.
  intros c s Tmin Tmax n xi k par Hc.
  assert (HE : forall i, Tk (scaled c s) k i = Tk s k i) by (intros; unfold Tk; rewrite scaled_times; reflexivity).
  assert (HL : length (scaled c s) = length s) by apply map_length.
  assert (Hev : even_enough (scaled c s) k <-> even_enough s k).
  { unfold even_enough. rewrite HL. split; intros H i Hi; specialize (H i Hi); rewrite ?HE in *; exact H. }
  assert (Hrow : forall T, row (scaled c s) k xi T = scale_peaks (Rabs c) (row s k xi T)).
  { intros T. unfold row. rewrite !HE, scaled_vals, every_map. apply time_stepping_scal. }
  destruct (response_spectra s Tmin Tmax n xi k par) as [r|e] eqn:E1;
    destruct (response_spectra (scaled c s) Tmin Tmax n xi k par) as [r'|e'] eqn:E2.
  - assert (HT : s_Tn r' = s_Tn r /\ s_fn r' = s_fn r).
    { destruct (proj1 (C22_accepts_iff s Tmin Tmax n xi k par) (ex_intro _ r E1)) as (A1 & A2 & A3 & A4).
      destruct (proj1 (C22_accepts_iff (scaled c s) Tmin Tmax n xi k par) (ex_intro _ r' E2)) as (B1 & B2 & B3 & B4).
      rewrite response_eq in E1, E2 by auto. injection E1 as <-. injection E2 as <-. auto. }
    destruct HT as [HT HF]. split; [exact HT|]. split; [exact HF|]. intros i Hi.
    exists (row s k xi (nth i (s_Tn r) 0)). split; [eapply nth_row; eauto|].
    rewrite <- Hrow, <- HT. eapply nth_row; eauto.
  - destruct (proj1 (C22_accepts_iff s Tmin Tmax n xi k par) (ex_intro _ r E1)) as (A1 & A2 & A3 & A4).
    destruct (proj2 (C22_accepts_iff (scaled c s) Tmin Tmax n xi k par)) as (r'' & E3); [|congruence].
    rewrite HL, Hev. auto.
  - destruct (proj1 (C22_accepts_iff (scaled c s) Tmin Tmax n xi k par) (ex_intro _ r' E2)) as (A1 & A2 & A3 & A4).
    destruct (proj2 (C22_accepts_iff s Tmin Tmax n xi k par)) as (r'' & E3); [|congruence].
    rewrite <- HL, <- Hev. auto.
  - destruct (C22_errors _ _ _ _ _ _ _ _ E1) as [I1 V1]. destruct (C22_errors _ _ _ _ _ _ _ _ E2) as [I2 V2].
    rewrite HL, Hev in *.
    unfold response_spectra in E1.
    destruct (Nat.eqb_spec k 0) as [->|Hk0]; [injection E1 as <-; symmetry; apply V2; auto|].
    destruct (Nat.lt_ge_cases k (length s)) as [Hl|Hl].
    + assert (Hcase : n = 0%nat \/ ~ even_enough s k).
      { destruct (Nat.eq_dec n 0) as [->|Hn]; [auto|]. right. intros He.
        assert (exists r, response_spectra (scaled c s) Tmin Tmax n xi k par = Ok r) as (r & Er); [|congruence].
        apply C22_accepts_iff. rewrite HL, Hev. repeat split; auto; lia. }
      rewrite (proj2 V1), (proj2 V2); auto.
    + rewrite (proj2 I1), (proj2 I2); auto; split; auto; lia.
Qed.

(** A record of zeros has zero spectra, and the sign of a record does not matter. *)
Theorem C22_zero_and_sign : forall s Tmin Tmax n xi k par r i, completes n par ->
  response_spectra s Tmin Tmax n xi k par = Ok r -> (i < n)%nat ->
  (Forall (fun x => x = 0) (vals s) -> nth i (s_rows r) None = Some (mkpeaks 0 0 0 0 0)) /\
  exists r', response_spectra (scaled (-1) s) Tmin Tmax n xi k par = Ok r' /\ nth i (s_rows r') None = nth i (s_rows r) None.
Proof.
  intros s Tmin Tmax n xi k par r i Hc E Hi. split.
  - intros HZ. pose proof (C22_scales 0 s Tmin Tmax n xi k par Hc) as H. rewrite E in H.
    assert (Hs : scaled 0 s = s).
    { unfold scaled. clear -HZ. unfold vals in HZ. induction s as [|[t x] s IH]; [reflexivity|].
      cbn in *. inversion HZ; subst. rewrite Rmult_0_l, IH by auto. reflexivity. }
    rewrite Hs, E in H. destruct H as (_ & _ & H). destruct (H i Hi) as (p & _ & ->).
    unfold scale_peaks. rewrite Rabs_R0, !Rmult_0_l. reflexivity.
  - pose proof (C22_scales (-1) s Tmin Tmax n xi k par Hc) as H. rewrite E in H.
    destruct (response_spectra (scaled (-1) s) Tmin Tmax n xi k par) as [r'|]; [|contradiction].
    exists r'. split; [reflexivity|]. destruct H as (_ & _ & H). destruct (H i Hi) as (p & -> & ->).
    f_equal. unfold scale_peaks. replace (Rabs (-1)) with 1 by (rewrite Rabs_left; lra). destruct p; cbn. rewrite !Rmult_1_l. reflexivity.
Qed.

(** ** Subsampling and longer records *)
Theorem C22_subsampling : forall s Tmin Tmax n xi k par, (0 < k)%nat ->
  response_spectra s Tmin Tmax n xi k par = response_spectra (every k s) Tmin Tmax n xi 1 par.
Proof.
  intros s Tmin Tmax n xi k par Hk. unfold response_spectra.
  destruct (Nat.eqb_spec k 0); [lia|]. cbn [Nat.eqb]. unfold times, vals. rewrite !every_1, !every_map. reflexivity.
Qed.

Lemma march_firstn c : forall m a s, march c s (firstn m a) = firstn m (march c s a).
Proof.
  induction m as [|m IH]; intros a s; [reflexivity|]. destruct a as [|a0 [|a1 a]].
  - reflexivity.
  - cbn. destruct m; reflexivity.
  - destruct m as [|m]; [reflexivity|].
    change (firstn (S (S m)) (a0 :: a1 :: a)) with (a0 :: firstn (S m) (a1 :: a)).
    change (march c s (a0 :: a1 :: a)) with (s :: march c (advance c s a0 a1) (a1 :: a)).
    change (firstn (S (S m)) (s :: march c (advance c s a0 a1) (a1 :: a))) with (s :: firstn (S m) (march c (advance c s a0 a1) (a1 :: a))).
    rewrite <- IH. reflexivity.
Qed.
Lemma max_abs_firstn m l : max_abs (firstn m l) <= max_abs l.
Proof.
  apply max_abs_le; [apply max_abs_nonneg|]. intros x Hx. apply max_abs_ge.
  rewrite <- (firstn_skipn m l). apply in_app_iff. auto.
Qed.

(** Recording for longer never lowers a spectral ordinate. *)
Theorem C22_longer_record : forall s m Tmin Tmax n xi par r r' i, 0 < Tmin -> 0 < Tmax -> completes n par ->
  response_spectra (firstn m s) Tmin Tmax n xi 1 par = Ok r ->
  response_spectra s Tmin Tmax n xi 1 par = Ok r' -> (i < n)%nat ->
  exists p p', nth i (s_rows r) None = Some p /\ nth i (s_rows r') None = Some p' /\
    p_SD p <= p_SD p' /\ p_SV p <= p_SV p' /\ p_SA p <= p_SA p' /\ p_PSA p <= p_PSA p' /\ p_PSV p <= p_PSV p'.
Proof.
  intros s m Tmin Tmax n xi par r r' i HT1 HT2 Hc E E' Hi.
  destruct (C22_periods _ _ _ _ _ _ _ _ HT1 HT2 E) as (_ & _ & _ & _ & HP & _).
  destruct (HP i Hi) as [HTi _].
  destruct (proj1 (C22_accepts_iff _ _ _ _ _ _ _) (ex_intro _ r E)) as (A1 & A2 & A3 & A4).
  destruct (proj1 (C22_accepts_iff _ _ _ _ _ _ _) (ex_intro _ r' E')) as (B1 & B2 & B3 & B4).
  do 2 eexists. split; [eapply nth_row; eauto|]. split; [eapply nth_row; eauto|].
  assert (HT : s_Tn r' = s_Tn r) by (rewrite response_eq in E, E' by auto; injection E as <-; injection E' as <-; reflexivity).
  rewrite HT. set (T := nth i (s_Tn r) 0) in *.
  assert (Hm : (1 < m)%nat) by (rewrite firstn_length in A3; lia).
  unfold row. rewrite !every_1.
  assert (Hdt : forall j, (j < 2)%nat -> Tk (firstn m s) 1 j = Tk s 1 j).
  { intros j Hj. unfold Tk. rewrite Nat.mul_1_r. unfold times. rewrite <- firstn_map.
    rewrite <- (firstn_skipn m (map fst s)) at 2. rewrite app_nth1; [reflexivity|].
    rewrite firstn_length, map_length. lia. }
  rewrite !Hdt by lia. set (dt := Tk s 1 1 - Tk s 1 0).
  replace (vals (firstn m s)) with (firstn m (vals s)) by (unfold vals; apply firstn_map).
  set (w := 2 * PI / T). assert (Hw : 0 < w) by (apply Rdiv_lt_0_compat; [pose proof PI_RGT_0; lra|exact HTi]).
  unfold time_stepping. rewrite march_firstn. set (uv := march (chopra w xi dt) (0, 0) (vals s)).
  assert (Luv : length uv = length (vals s)) by apply march_length.
  rewrite !utdd_eq by (rewrite ?firstn_length, ?Luv; reflexivity).
  cbn [p_SD p_SV p_SA p_PSV p_PSA]. rewrite <- !firstn_map.
  pose proof (max_abs_firstn m (map fst uv)) as H1. pose proof (max_abs_nonneg (firstn m (map fst uv))) as H0.
  repeat split; try apply max_abs_firstn; try exact H1.
  - apply Rmult_le_compat_r; [lra|]. apply Rmult_le_compat_r; lra.
  - apply Rmult_le_compat_r; lra.
Qed.

(** ** Stiff oscillators *)
Lemma trig2 x y z : Rabs (x * sin z + y * cos z) <= Rabs x + Rabs y.
Proof.
  eapply Rle_trans; [apply Rabs_triang|]. rewrite !Rabs_mult.
  pose proof (SIN_bound z). pose proof (COS_bound z). pose proof (Rabs_pos x). pose proof (Rabs_pos y).
  assert (Rabs (sin z) <= 1) by (apply Rabs_le; lra). assert (Rabs (cos z) <= 1) by (apply Rabs_le; lra). nra.
Qed.
Lemma exp_small x : 0 < x -> exp (- x) <= 1 / x.
Proof.
  intros Hx. rewrite exp_Ropp. unfold Rdiv. rewrite Rmult_1_l. apply Rinv_le_contravar; [exact Hx|].
  pose proof (exp_ineq1 x (Rgt_not_eq _ _ Hx)). lra.
Qed.

(** Bounds of the scaled coefficients. *)
Lemma chopra_stiff xi dt : 0 < xi < 1 -> 0 < dt -> exists G, 0 <= G /\ forall w, 1 <= w ->
  let c := chopra w xi dt in
  Rabs (cA c) <= G / w /\ Rabs (w * cB c) <= G / w /\ Rabs (w * w * cC c) <= G / w /\ Rabs (w * w * cD c - 1) <= G / w /\
  Rabs (cA' c / w) <= G / w /\ Rabs (cB' c) <= G / w /\ Rabs (w * cC' c) <= G / w /\ Rabs (w * cD' c) <= G / w.
Proof.
  intros Hxi Hdt. set (sq := sqrt (1 - xi * xi)).
  assert (Hsq : 0 < sq) by (apply sqrt_lt_R0; nra).
  set (i1 := / sq). set (i2 := / dt). set (i3 := / (xi * dt)).
  assert (P1 : 0 < i1) by (apply Rinv_0_lt_compat, Hsq).
  assert (P2 : 0 < i2) by (apply Rinv_0_lt_compat, Hdt).
  assert (P3 : 0 < i3) by (apply Rinv_0_lt_compat; nra).
  set (S := 1 + i1 + i1 * i2 + i2).
  set (G := 4 * i2 + 8 * i3 * S + 8 * S).
  assert (HS : 1 <= S) by (unfold S; pose proof (Rmult_lt_0_compat _ _ P1 P2); lra).
  assert (P4 : 0 < i1 * i2) by (apply Rmult_lt_0_compat; auto).
  exists G. split; [unfold G; nra|]. intros w Hw c.
  assert (Hwi : 0 < / w <= 1).
  { split; [apply Rinv_0_lt_compat; lra|]. rewrite <- Rinv_1. apply Rinv_le_contravar; lra. }
  set (q := / w) in *. set (e := exp (- xi * w * dt)).
  assert (He0 : 0 < e) by apply exp_pos.
  assert (He : e <= i3 * q).
  { unfold e. replace (- xi * w * dt) with (- (xi * w * dt)) by ring.
    eapply Rle_trans; [apply exp_small; repeat apply Rmult_lt_0_compat; lra|].
    right. unfold i3, q. field. repeat split; lra. }
  assert (He1 : e <= 1).
  { unfold e. rewrite <- exp_0. apply Rlt_le, exp_increasing. assert (0 < xi * w * dt) by (repeat apply Rmult_lt_0_compat; lra). lra. }
  set (z := w * sq * dt).
  assert (Hq2 : e * q <= i3 * q) by nra.
  assert (HG : G / w = G * q) by reflexivity. rewrite HG.
  assert (Rxi : Rabs xi = xi) by (apply Rabs_right; lra).
  (* e times a combination of sine and cosine *)
  assert (B : forall x y m, Rabs x + Rabs y <= m -> 0 <= m -> Rabs (e * (x * sin z + y * cos z)) <= i3 * m * q).
  { intros x y m Hm Hm0. rewrite Rabs_mult, (Rabs_right e) by lra.
    pose proof (trig2 x y z) as Ht. pose proof (Rabs_pos (x * sin z + y * cos z)).
    apply Rle_trans with ((i3 * q) * m); [|right; ring]. apply Rmult_le_compat; lra. }
  assert (T1 : Rabs (xi * i1) <= i1) by (rewrite Rabs_right by nra; nra).
  assert (T2 : Rabs (2 * xi * q * i2) <= 2 * i2) by (rewrite Rabs_right; [|apply Rle_ge; repeat apply Rmult_le_pos; lra];
     assert (xi * q <= 1) by nra; nra).
  assert (T3 : Rabs ((1 - 2 * (xi * xi)) * q * i1 * i2) <= i1 * i2).
  { rewrite !Rabs_mult. rewrite (Rabs_right q), (Rabs_right i1), (Rabs_right i2) by lra.
    assert (Rabs (1 - 2 * (xi * xi)) <= 1) by (apply Rabs_le; nra). pose proof (Rabs_pos (1 - 2 * (xi * xi))).
    assert (Rabs (1 - 2 * (xi * xi)) * q <= 1) by nra. nra. }
  assert (T0 : Rabs (2 * xi * q * i2) <= 2 * i2 * q).
  { rewrite Rabs_right; [|apply Rle_ge; repeat apply Rmult_le_pos; lra]. assert (0 <= q * i2) by nra. nra. }
  assert (Hnz : w <> 0 /\ sq <> 0 /\ dt <> 0) by (repeat split; lra). destruct Hnz as (N1 & N2 & N3).
  assert (U1 : Rabs 1 = 1) by apply Rabs_R1.
  assert (UI1 : Rabs i1 = i1) by (apply Rabs_right; lra).
  assert (fin : forall m x, m <= S * 8 -> x <= i3 * m * q -> x <= G * q).
  { intros m x Hm Hx. assert (i3 * m * q <= i3 * (S * 8) * q) by (apply Rmult_le_compat_r; [lra|]; apply Rmult_le_compat_l; lra).
    assert (0 <= q * S) by nra. assert (0 <= i2 * q) by nra. unfold G. lra. }
  assert (fin2 : forall m x b, m <= S * 8 -> x <= b + i3 * m * q -> b <= 4 * i2 * q + 8 * S * q -> x <= G * q).
  { intros m x b Hm Hx Hb. assert (i3 * m * q <= i3 * (S * 8) * q) by (apply Rmult_le_compat_r; [lra|]; apply Rmult_le_compat_l; lra).
    unfold G. lra. }
  assert (Hqi : 0 <= i2 * q /\ 0 <= S * q) by (split; nra).
  subst c. unfold chopra. fold sq. fold z. fold e. cbn [cA cB cC cD cA' cB' cC' cD'].
  assert (TS : i1 <= S /\ i2 <= S /\ i1 * i2 <= S /\ 1 <= S) by (unfold S; lra).
  repeat split.
  - apply (fin (i1 + 1)); [lra|]. replace (xi / sq * sin z + cos z) with (xi * i1 * sin z + 1 * cos z) by (unfold i1; field; auto).
    apply B; lra.
  - apply (fin i1); [lra|]. replace (w * (e * (1 / (w * sq) * sin z))) with (e * (i1 * sin z + 0 * cos z)) by (unfold i1; field; auto).
    apply B; rewrite ?Rabs_R0; lra.
  - apply (fin2 (i1 * i2 + i1 + (1 + 2 * i2)) _ (Rabs (2 * xi * q * i2))); [lra| |lra].
    match goal with |- Rabs ?X <= _ => replace X with (2 * xi * q * i2 + e * (((1 - 2 * (xi * xi)) * q * i1 * i2 + - (xi * i1)) * sin z
       + (- (1 + 2 * xi * q * i2)) * cos z)) by (unfold q, i1, i2; field; auto) end.
    eapply Rle_trans; [apply Rabs_triang|]. apply Rplus_le_compat_l. apply B; [|lra].
    rewrite Rabs_Ropp. apply Rplus_le_compat; (eapply Rle_trans; [apply Rabs_triang|]); rewrite ?Rabs_Ropp; lra.
  - apply (fin2 (i1 * i2 + 2 * i2) _ (Rabs (2 * xi * q * i2))); [lra| |lra].
    match goal with |- Rabs ?X <= _ => replace X with (- (2 * xi * q * i2) + e * (- ((1 - 2 * (xi * xi)) * q * i1 * i2) * sin z
       + 2 * xi * q * i2 * cos z)) by (unfold q, i1, i2; field; auto) end.
    eapply Rle_trans; [apply Rabs_triang|]. rewrite Rabs_Ropp. apply Rplus_le_compat_l. apply B; [|lra].
    rewrite Rabs_Ropp. lra.
  - apply (fin i1); [lra|]. replace (- e * (w / sq * sin z) / w) with (e * (- i1 * sin z + 0 * cos z)) by (unfold i1; field; auto).
    apply B; rewrite ?Rabs_Ropp, ?Rabs_R0; lra.
  - apply (fin (i1 + 1)); [lra|]. replace (cos z - xi / sq * sin z) with (- (xi * i1) * sin z + 1 * cos z) by (unfold i1; field; auto).
    apply B; rewrite ?Rabs_Ropp; lra.
  - apply (fin2 (i1 + i1 * i2 + i2) _ (i2 * q)); [lra| |lra].
    match goal with |- Rabs ?X <= _ => replace X with (- (i2 * q) + e * ((i1 + xi * q * i2 * i1) * sin z + q * i2 * cos z))
       by (unfold q, i1, i2; field; auto) end.
    eapply Rle_trans; [apply Rabs_triang|]. rewrite Rabs_Ropp, (Rabs_right (i2 * q)) by lra. apply Rplus_le_compat_l. apply B; [|lra].
    rewrite (Rabs_right (q * i2)) by lra.
    assert (Hx : 0 <= xi * q * i2 * i1 <= i1 * i2).
    { split; [repeat apply Rmult_le_pos; lra|]. assert (xi * q <= 1) by nra.
      replace (xi * q * i2 * i1) with ((xi * q) * (i1 * i2)) by ring. nra. }
    rewrite Rabs_right by lra. nra.
  - assert (HB : Rabs (1 / (w * w) / dt * (1 - e * (xi / sq * sin z + cos z)) * w) <= i2 * q * (1 + (1 + i1))).
    { replace (1 / (w * w) / dt * (1 - e * (xi / sq * sin z + cos z)) * w)
        with (i2 * q * (1 + - (e * (xi * i1 * sin z + 1 * cos z)))) by (unfold q, i1, i2; field; auto).
      rewrite Rabs_mult, (Rabs_right (i2 * q)) by lra. apply Rmult_le_compat_l; [lra|].
      eapply Rle_trans; [apply Rabs_triang|]. rewrite U1, Rabs_Ropp, Rabs_mult, (Rabs_right e) by lra.
      pose proof (trig2 (xi * i1) 1 z) as Ht. pose proof (Rabs_pos (xi * i1 * sin z + 1 * cos z)). nra. }
    rewrite Rmult_comm. eapply Rle_trans; [exact HB|].
    unfold G. assert (0 <= i3 * S * q) by (repeat apply Rmult_le_pos; lra).
    assert (i2 * q * i1 <= S * q) by nra. nra.
Qed.

Lemma stiff_samples xi dt a : 0 < xi < 1 -> 0 < dt -> forall k, (k < length a)%nat ->
  exists M K, 0 <= M /\ 0 <= K /\ forall w, 1 <= w ->
    let u := w * w * uk (chopra w xi dt) a k in
    let v := w * vk (chopra w xi dt) a k in
    Rabs u <= M /\ Rabs v <= M /\
    ((0 < k)%nat -> Rabs (u + nth k a 0) <= K / w /\ Rabs v <= K / w).
Proof.
  intros Hxi Hdt. destruct (chopra_stiff xi dt Hxi Hdt) as (G & HG & HC).
  induction k as [|k IH]; intros Hk.
  - exists 0, 0. split; [lra|]. split; [lra|]. intros w Hw. unfold uk, vk. rewrite march_0 by auto. cbn [fst snd].
    rewrite !Rmult_0_r, Rabs_R0. repeat split; try lra; lia.
  - destruct IH as (M & K0 & HM & _ & H); [lia|].
    set (x0 := Rabs (nth k a 0)). set (x1 := Rabs (nth (S k) a 0)).
    assert (X0 : 0 <= x0) by apply Rabs_pos. assert (X1 : 0 <= x1) by apply Rabs_pos.
    set (K := G * (M + M + x0 + x1)).
    assert (HK : 0 <= K) by (unfold K; apply Rmult_le_pos; lra).
    exists (K + x1), K. split; [lra|]. split; [exact HK|]. intros w Hw.
    destruct (H w Hw) as (B1 & B2 & _). destruct (HC w Hw) as (C1 & C2 & C3 & C4 & C5 & C6 & C7 & C8).
    set (c := chopra w xi dt) in *. unfold uk, vk. rewrite march_S by auto.
    fold (uk c a k) in B1. fold (vk c a k) in B2.
    unfold advance; cbn [fst snd]. fold (uk c a k) (vk c a k).
    assert (Hq : 0 < / w <= 1).
    { split; [apply Rinv_0_lt_compat; lra|]. rewrite <- Rinv_1. apply Rinv_le_contravar; lra. }
    assert (EK : K / w = G / w * M + G / w * M + G / w * x0 + G / w * x1) by (unfold K; field; lra).
    assert (Gw : 0 <= G / w) by (apply Rmult_le_pos; lra).
    assert (PM : forall p q P Q, Rabs p <= P -> Rabs q <= Q -> Rabs (p * q) <= P * Q).
    { intros p q P Q Hp Hq'. rewrite Rabs_mult. apply Rmult_le_compat; auto using Rabs_pos. }
    assert (R4 : forall p q r t P Q R' T, Rabs p <= P -> Rabs q <= Q -> Rabs r <= R' -> Rabs t <= T -> Rabs (p + q + r + t) <= P + Q + R' + T).
    { intros p q r t P Q R' T Hp Hq' Hr Ht. eapply Rle_trans; [apply Rabs_triang|]. apply Rplus_le_compat; [|exact Ht].
      eapply Rle_trans; [apply Rabs_triang|]. apply Rplus_le_compat; [|exact Hr].
      eapply Rle_trans; [apply Rabs_triang|]. apply Rplus_le_compat; auto. }
    assert (HU : Rabs (w * w * (uk c a k * cA c + vk c a k * cB c + -1 * nth k a 0 * cC c + -1 * nth (S k) a 0 * cD c) + nth (S k) a 0) <= K / w).
    { rewrite EK.
      replace (w * w * (uk c a k * cA c + vk c a k * cB c + -1 * nth k a 0 * cC c + -1 * nth (S k) a 0 * cD c) + nth (S k) a 0)
        with (cA c * (w * w * uk c a k) + w * cB c * (w * vk c a k) + w * w * cC c * (- nth k a 0) + (w * w * cD c - 1) * (- nth (S k) a 0)) by ring.
      apply R4; apply PM; auto; rewrite Rabs_Ropp; apply Rle_refl. }
    assert (HV : Rabs (w * (uk c a k * cA' c + vk c a k * cB' c + -1 * nth k a 0 * cC' c + -1 * nth (S k) a 0 * cD' c)) <= K / w).
    { rewrite EK.
      replace (w * (uk c a k * cA' c + vk c a k * cB' c + -1 * nth k a 0 * cC' c + -1 * nth (S k) a 0 * cD' c))
        with (cA' c / w * (w * w * uk c a k) + cB' c * (w * vk c a k) + w * cC' c * (- nth k a 0) + w * cD' c * (- nth (S k) a 0)) by (field; lra).
      apply R4; apply PM; auto; rewrite Rabs_Ropp; apply Rle_refl. }
    assert (HKw : K / w <= K) by (unfold Rdiv; nra).
    split; [|split; [lra|auto]].
    match goal with |- Rabs ?X <= _ => replace X with ((X + nth (S k) a 0) + - nth (S k) a 0) by ring end.
    eapply Rle_trans; [apply Rabs_triang|]. rewrite Rabs_Ropp. fold x1. lra.
Qed.

Lemma uniform_bound (P : nat -> R -> Prop) : (forall k K K', K <= K' -> P k K -> P k K') ->
  forall n, (forall k, (k < n)%nat -> exists K, 0 <= K /\ P k K) -> exists K, 0 <= K /\ forall k, (k < n)%nat -> P k K.
Proof.
  intros Hmono. induction n as [|n IH]; intros H.
  - exists 0. split; [lra|]. intros; lia.
  - destruct IH as (K1 & H1 & F1); [intros k Hk; apply H; lia|]. destruct (H n) as (K2 & H2 & F2); [lia|].
    exists (Rmax K1 K2). split; [eapply Rle_trans; [exact H1|apply Rmax_l]|].
    intros k Hk. destruct (Nat.eq_dec k n) as [->|].
    + eapply Hmono; [apply Rmax_r|exact F2].
    + eapply Hmono; [apply Rmax_l|]. apply F1. lia.
Qed.

(** As the period goes to zero the spectral acceleration tends to the largest sample of
    the record, the first sample excepted: the oscillator starts at rest. *)
Theorem C22_stiff_limit : forall s k xi, 0 < xi < 1 -> (0 < k)%nat -> (k < length s)%nat -> even_enough s k ->
  0 < Tk s k 1 - Tk s k 0 ->
  exists K, forall T, 0 < T <= 2 * PI -> exists r p, response_spectra s T T 1 xi k None = Ok r /\
    s_Tn r = [T] /\ s_rows r = [Some p] /\
    forall m, peak_of (fun j => nth (S j) (every k (vals s)) 0) (length (every k (vals s)) - 1) m ->
      Rabs (p_SA p - m) <= K * T.
Proof.
  intros s k xi Hxi Hk HL He Hdt. set (dt := Tk s k 1 - Tk s k 0) in *. set (a := every k (vals s)) in *.
  assert (HLa : (1 < length a)%nat) by (unfold a; apply every_lt; auto; unfold vals; rewrite map_length; lia).
  destruct (uniform_bound (fun j K => forall w, 1 <= w -> (0 < j)%nat ->
      Rabs (- (2 * xi * w * vk (chopra w xi dt) a j + w * w * uk (chopra w xi dt) a j) - nth j a 0) <= K / w)) with (n := length a)
    as (K & HK0 & HK).
  { intros j K K' HKK H w Hw Hj. eapply Rle_trans; [apply H; auto|]. apply Rmult_le_compat_r; [|exact HKK].
    apply Rlt_le, Rinv_0_lt_compat; lra. }
  { intros j Hj. destruct (stiff_samples xi dt a Hxi Hdt j Hj) as (M & K & _ & HK & H).
    exists (3 * K). split; [lra|]. intros w Hw Hj0. destruct (H w Hw) as (_ & _ & H2). destruct (H2 Hj0) as [H3 H4].
    set (u := uk _ _ _) in *. set (v := vk _ _ _) in *.
    replace (- (2 * xi * w * v + w * w * u) - nth j a 0) with (- (2 * xi) * (w * v) + - (w * w * u + nth j a 0)) by ring.
    eapply Rle_trans; [apply Rabs_triang|]. rewrite Rabs_mult, !Rabs_Ropp, (Rabs_right (2 * xi)) by lra.
    replace (3 * K / w) with (2 * (K / w) + K / w) by (field; lra).
    pose proof (Rabs_pos (w * v)). nra. }
  exists (K / (2 * PI)). intros T HT.
  pose proof PI_RGT_0 as HPI.
  destruct (proj2 (C22_accepts_iff s T T 1 xi k None)) as (r & E); [repeat split; auto|].
  assert (HTn : s_Tn r = [T]).
  { rewrite response_eq in E by auto. injection E as <-. cbn [s_Tn].
    unfold logspace, linspace; cbn [seq map Nat.eqb]. f_equal.
    unfold log10, Rpower.
    assert (Hln : 0 < ln 10) by (rewrite <- ln_1; apply ln_increasing; lra).
    replace (ln T / ln 10 * ln 10) with (ln T) by (field; lra). apply exp_ln; lra. }
  destruct (response_rows s T T 1 xi k None r I E) as [HR _]. rewrite HTn in HR. cbn [map] in HR.
  exists r. eexists. split; [exact E|]. split; [exact HTn|]. split; [exact HR|]. intros m [Hm1 (j0 & Hj0 & Hm2)].
  set (w := 2 * PI / T).
  assert (Hw : 1 <= w).
  { unfold w. apply Rmult_le_reg_r with T; [lra|]. replace (2 * PI / T * T) with (2 * PI) by (field; lra). lra. }
  assert (EK : K / (2 * PI) * T = K / w) by (unfold w; field; split; lra).
  rewrite EK. unfold row. fold dt a w. unfold time_stepping. cbn [p_SA].
  set (uv := march (chopra w xi dt) (0, 0) a).
  assert (Luv : length uv = length a) by apply march_length. rewrite utdd_eq by exact Luv.
  set (F := fun q : R * R => - (2 * xi * w * snd q + w * w * fst q)).
  set (l := map F uv).
  assert (Ll : length l = length a) by (unfold l; rewrite map_length; exact Luv).
  assert (Hl : forall j, (j < length a)%nat -> nth j l 0 = - (2 * xi * w * vk (chopra w xi dt) a j + w * w * uk (chopra w xi dt) a j)).
  { intros j Hj. unfold l. rewrite (nth_indep _ 0 (F (0, 0))) by (rewrite map_length, Luv; exact Hj). rewrite (map_nth F). reflexivity. }
  assert (Hclose : forall j, (0 < j < length a)%nat -> Rabs (nth j l 0 - nth j a 0) <= K / w).
  { intros j Hj. rewrite Hl by lia. apply HK; auto; lia. }
  assert (Hnn : 0 <= K / w) by (apply Rmult_le_pos; [exact HK0|apply Rlt_le, Rinv_0_lt_compat; lra]).
  assert (Hm0 : 0 <= m) by (rewrite <- Hm2; apply Rabs_pos).
  apply Rabs_le. split.
  - (* a sample near the maximum *)
    assert (H1 : Rabs (nth (S j0) l 0) <= max_abs l) by (apply max_abs_ge, nth_In; lia).
    pose proof (Hclose (S j0) ltac:(lia)) as H2.
    pose proof (Rabs_triang_inv (nth (S j0) a 0) (nth (S j0) l 0)) as H3.
    rewrite (Rabs_minus_sym (nth (S j0) a 0)) in H3. rewrite Hm2 in H3. lra.
  - assert (max_abs l <= m + K / w); [|lra]. apply max_abs_le; [lra|]. intros x Hx.
    apply (In_nth _ _ 0) in Hx as (j & Hj & <-). rewrite Ll in Hj. destruct j as [|j].
    + rewrite Hl by lia. unfold uk, vk. rewrite march_0 by lia. cbn [fst snd].
      rewrite !Rmult_0_r, Rplus_0_r, Ropp_0, Rabs_R0. lra.
    + pose proof (Hclose (S j) ltac:(lia)) as H2. pose proof (Hm1 j ltac:(lia)) as H4.
      pose proof (Rabs_triang_inv (nth (S j) l 0) (nth (S j) a 0)). lra.
Qed.

Definition rec4 : signal := [(0, 0); (1, 1); (2, -2); (3, 1)].
Example C22_instance : exists r, response_spectra rec4 (1/10) 5 3 (5/100) 1 (Some [2; 0; 1]%nat) = Ok r /\
  completes 3 (Some [2; 0; 1]%nat) /\ 0 < Tk rec4 1 1 - Tk rec4 1 0 /\ even_enough rec4 1 /\
  peak_of (fun j => nth (S j) (every 1 (vals rec4)) 0) (length (every 1 (vals rec4)) - 1) 2.
Proof.
  assert (He : even_enough rec4 1).
  { intros i Hi. unfold Tk, rec4 in *. cbn in Hi. destruct i as [|[|[|i]]]; cbn; try lra. lia. }
  destruct (proj2 (C22_accepts_iff rec4 (1/10) 5 3 (5/100) 1 (Some [2; 0; 1]%nat))) as (r & E).
  { repeat split; auto; cbn; lia. }
  exists r. split; [exact E|]. split.
  { split.
    - repeat constructor; cbn; intuition lia.
    - intros i. cbn. intuition lia. }
  split; [unfold Tk, rec4; cbn; lra|]. split; [exact He|].
  split.
  - intros j Hj. cbn in Hj. destruct j as [|[|[|j]]]; cbn; try lia;
      [rewrite Rabs_right|rewrite Rabs_left|rewrite Rabs_right]; lra.
  - exists 1%nat. split; [cbn; lia|]. cbn. rewrite Rabs_left; lra.
Qed.
