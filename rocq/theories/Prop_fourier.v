(** Theorems about Fourier spectra of records: C32, and transfer functions of two
    records: C82. *)
From Coq Require Import Reals List Bool ZArith Lia Lra Psatz.
From Coquelicot Require Import Complex.
From Coq Require Import List.
From Verif Require Import Base M_generic M_motion M_interp M_soil M_dft P_dft M_signal.
Import ListNotations.
Open Scope R_scope.

(** ** C32 Fourier spectra *)

Lemma first_step_ok s : (2 <= length s)%nat -> exists dt, first_step s = Ok dt /\ dt = nth 1 (times s) 0 - nth 0 (times s) 0.
Proof.
  intros H. unfold first_step. rewrite (get_ok _ 1 0) by (unfold times; rewrite map_length; lia). cbn [bind]. rewrite (get_ok _ 0 0) by (unfold times; rewrite map_length; lia). cbn [bind]. eauto.
Qed.
Lemma first_step_err s : (length s < 2)%nat -> first_step s = Err IndexError.
Proof. intros H. unfold first_step. rewrite get_err by (unfold times; rewrite map_length; lia). reflexivity. Qed.
Lemma first_step_len s dt : first_step s = Ok dt -> (2 <= length s)%nat.
Proof. intros H. destruct (Nat.lt_ge_cases (length s) 2) as [L|L]; [rewrite first_step_err in H by exact L; discriminate|exact L]. Qed.

Definition rows (N : nat) (double_sided : bool) : nat := if double_sided then N else Nat.div (N + 1) 2.
Lemma rows_le N d : (1 <= N)%nat -> (rows N d <= N)%nat.
Proof. intros H. destruct d; cbn [rows]; [lia|]. apply Nat.div_le_upper_bound; lia. Qed.

Lemma nth_combine {A B} (l1 : list A) (l2 : list B) k d1 d2 : length l1 = length l2 -> nth k (combine l1 l2) (d1, d2) = (nth k l1 d1, nth k l2 d2).
Proof. intros H. apply combine_nth, H. Qed.

Lemma nth_firstn {A} n (l : list A) k d : (k < n)%nat -> nth k (firstn n l) d = nth k l d.
Proof. revert l k. induction n as [|n IH]; intros [|a l] [|k] H; try lia; cbn [firstn nth]; try reflexivity. apply IH. lia. Qed.

(** Succeeds exactly with two samples or more; shape and labels; the label of a row is
    one bin above the frequency the row is computed for. *)
Theorem C32_shape : forall s ds,
  (forall dt, first_step s = Ok dt -> exists X, fourier_transform s ds = Ok X /\ length X = rows (length s) ds /\
     forall k, (k < length X)%nat -> fst (nth k X (0, RtoC 0)) = (INR k + 1) / (INR (length s) * dt)) /\
  ((length s < 2)%nat -> fourier_transform s ds = Err IndexError).
Proof.
  intros s ds. split.
  - intros dt E. pose proof (first_step_len s dt E) as L. unfold fourier_transform. rewrite E. cbn [bind]. eexists. split; [reflexivity|]. fold (rows (length s) ds).
    assert (R1 : length (firstn (rows (length s) ds) (dft (map RtoC (vals s)))) = rows (length s) ds).
    { rewrite firstn_length, dft_length, map_length. unfold vals. rewrite map_length. pose proof (rows_le (length s) ds ltac:(lia)). lia. }
    split; [rewrite combine_length, map_length, seq_length, R1; lia|]. intros k Hk. rewrite combine_length, map_length, seq_length, R1 in Hk.
    rewrite nth_combine by (rewrite map_length, seq_length, R1; reflexivity). cbn [fst]. rewrite nth_map_seq by lia. rewrite plus_INR. reflexivity.
  - intros L. unfold fourier_transform. rewrite first_step_err by exact L. reflexivity.
Qed.

Theorem C32_frequencies : forall s ds dt X, first_step s = Ok dt -> 0 < dt -> fourier_transform s ds = Ok X ->
  forall k, (S k < length X)%nat ->
    fst (nth (S k) X (0, RtoC 0)) - fst (nth k X (0, RtoC 0)) = 1 / (INR (length s) * dt) /\
    0 < fst (nth k X (0, RtoC 0)) < fst (nth (S k) X (0, RtoC 0)).
Proof.
  intros s ds dt X E Hd EX k Hk. destruct (proj1 (C32_shape s ds) dt E) as (X' & EX' & _ & HF). assert (X' = X) by congruence. subst X'.
  rewrite (HF (S k)) by exact Hk. rewrite (HF k) by lia. pose proof (first_step_len s dt E) as L. assert (0 < INR (length s)) by (apply lt_0_INR; lia). pose proof (pos_INR k).
  rewrite S_INR. assert (D : 0 < INR (length s) * dt) by nra. split; [field; lra|]. split; [apply Rdiv_lt_0_compat; lra|]. apply Rmult_lt_compat_r; [apply Rinv_0_lt_compat, D|lra].
Qed.

Lemma transform_value s ds X k : fourier_transform s ds = Ok X -> (k < length X)%nat ->
  (k < length s)%nat /\ snd (nth k X (0, RtoC 0)) = nth k (dft (map RtoC (vals s))) (RtoC 0).
Proof.
  intros E Hk. unfold fourier_transform in E. destruct (first_step s) as [dt|] eqn:F; [cbn [bind] in E|discriminate]. pose proof (first_step_len s dt F) as L. fold (rows (length s) ds) in E.
  assert (EX : X = combine (map (fun k0 => INR (k0 + 1) / (INR (length s) * dt)) (seq 0 (rows (length s) ds))) (firstn (rows (length s) ds) (dft (map RtoC (vals s))))) by congruence. clear E.
  pose proof (rows_le (length s) ds ltac:(lia)) as RL.
  assert (R1 : length (firstn (rows (length s) ds) (dft (map RtoC (vals s)))) = rows (length s) ds).
  { rewrite firstn_length, dft_length, map_length. unfold vals. rewrite map_length. lia. }
  subst X. rewrite combine_length, map_length, seq_length, R1 in Hk. split; [lia|]. rewrite nth_combine by (rewrite map_length, seq_length, R1; reflexivity). cbn [snd]. apply nth_firstn. lia.
Qed.

Lemma vals_length s : length (vals s) = length s.
Proof. unfold vals. apply map_length. Qed.

(** The double-sided spectrum of a record is conjugate symmetric. *)
Theorem C32_conjugate_symmetric : forall s X k, fourier_transform s true = Ok X -> (0 < k < length s)%nat ->
  snd (nth (length s - k) X (0, RtoC 0)) = Cconj (snd (nth k X (0, RtoC 0))) /\ Im (snd (nth 0 X (0, RtoC 0))) = 0.
Proof.
  intros s X k E Hk. assert (L : length X = length s).
  { destruct (first_step s) as [dt|] eqn:F; [|unfold fourier_transform in E; rewrite F in E; discriminate]. destruct (proj1 (C32_shape s true) dt F) as (X' & EX' & LX & _). assert (X' = X) by congruence. subst. exact LX. }
  destruct (transform_value s true X (length s - k) E ltac:(lia)) as [_ ->]. destruct (transform_value s true X k E ltac:(lia)) as [_ ->]. destruct (transform_value s true X 0 E ltac:(lia)) as [_ ->]. split.
  - rewrite <- (vals_length s). apply dft_real_symmetric. rewrite vals_length. exact Hk.
  - destruct (dft_symmetric (vals s)) as [H0 _]. assert (N : dft (map RtoC (vals s)) <> []).
    { intros Z. apply (f_equal (@length C)) in Z. rewrite dft_length, map_length, vals_length in Z. cbn in Z. lia. }
    specialize (H0 N). apply (f_equal snd) in H0. unfold Cconj, Im in *. cbn [snd] in *. lra.
Qed.

(** The transform is linear: the spectrum of a combination of records with the same
    times is the combination of the spectra. *)
Theorem C32_linear : forall s1 s2 (a b : R) ds X1 X2, times s1 = times s2 -> fourier_transform s1 ds = Ok X1 -> fourier_transform s2 ds = Ok X2 ->
  exists X, fourier_transform (with_vals s1 (map (fun p => a * fst p + b * snd p) (combine (vals s1) (vals s2)))) ds = Ok X /\
    length X = length X1 /\ map fst X = map fst X1 /\
    forall k, (k < length X)%nat -> snd (nth k X (0, RtoC 0)) = Cplus (Cmult (RtoC a) (snd (nth k X1 (0, RtoC 0)))) (Cmult (RtoC b) (snd (nth k X2 (0, RtoC 0)))).
Proof.
  intros s1 s2 a b ds X1 X2 HT E1 E2. assert (LS : length s1 = length s2) by (unfold times in HT; apply (f_equal (@length R)) in HT; rewrite !map_length in HT; exact HT).
  set (v := map (fun p => a * fst p + b * snd p) (combine (vals s1) (vals s2))).
  assert (Lv : length v = length s1) by (unfold v; rewrite map_length, combine_length, !vals_length; lia).
  assert (MF : forall (l1 l2 : list R), length l2 = length l1 -> map fst (combine l1 l2) = l1 /\ map snd (combine l1 l2) = l2).
  { clear. induction l1 as [|x l1 IH]; intros [|y l2] H; try discriminate; [split; reflexivity|]. cbn [combine map fst snd]. destruct (IH l2 ltac:(cbn in H; lia)) as [-> ->]. split; reflexivity. }
  assert (Lt : length (times s1) = length s1) by (unfold times; apply map_length).
  destruct (MF (times s1) v ltac:(lia)) as [Mt Mv].
  assert (Wt : times (with_vals s1 v) = times s1) by exact Mt. assert (Wv : vals (with_vals s1 v) = v) by exact Mv.
  assert (Wl : length (with_vals s1 v) = length s1) by (unfold with_vals; rewrite combine_length; lia).
  destruct (first_step s1) as [dt|] eqn:F1; [|unfold fourier_transform in E1; rewrite F1 in E1; discriminate].
  assert (Fw : first_step (with_vals s1 v) = Ok dt) by (unfold first_step; rewrite Wt; exact F1).
  assert (F2 : first_step s2 = Ok dt) by (unfold first_step; rewrite <- HT; exact F1).
  destruct (proj1 (C32_shape _ ds) dt Fw) as (X & EX & LX & HF). destruct (proj1 (C32_shape s1 ds) dt F1) as (X1' & EX1 & LX1 & HF1). assert (X1' = X1) by congruence. subst X1'.
  destruct (proj1 (C32_shape s2 ds) dt F2) as (X2' & EX2 & LX2 & _). assert (X2' = X2) by congruence. subst X2'.
  rewrite Wl in LX, HF. exists X. split; [exact EX|]. split; [congruence|]. split.
  - apply (list_ext 0); [rewrite !map_length; congruence|]. rewrite map_length. intros k Hk. 
    rewrite (nth_indep (map fst X) 0 (fst (0, RtoC 0))) by (rewrite map_length; congruence). rewrite (nth_indep (map fst X1) 0 (fst (0, RtoC 0))) by (rewrite map_length; congruence). rewrite (map_nth fst X), (map_nth fst X1). rewrite HF, HF1 by congruence. reflexivity.
  - intros k Hk. destruct (transform_value _ ds X k EX Hk) as [_ ->]. destruct (transform_value _ ds X1 k E1 ltac:(congruence)) as [K1 ->]. destruct (transform_value _ ds X2 k E2 ltac:(congruence)) as [_ ->].
    rewrite Wv. rewrite !dft_nth by (rewrite map_length, ?Lv, ?vals_length; lia). rewrite !map_length, Lv, !vals_length, <- LS, <- !csum_scal, <- csum_plus. apply csum_ext. intros n Hn.
    rewrite !nth_RtoC. unfold v. rewrite (nth_indep (map _ _) 0 (a * fst (0, 0) + b * snd (0, 0))) by (rewrite map_length, combine_length, !vals_length; lia).
    rewrite (map_nth (fun p => a * fst p + b * snd p)). rewrite (nth_combine (vals s1) (vals s2) n 0 0) by (rewrite !vals_length; lia). cbn [fst snd]. rewrite RtoC_plus, !RtoC_mult. ring.
Qed.

(** Nothing is lost: the double-sided spectrum determines the record. *)
Theorem C32_invertible : forall s X, fourier_transform s true = Ok X -> idft (map snd X) = map RtoC (vals s).
Proof.
  intros s X E. rewrite <- (idft_dft (map RtoC (vals s))). f_equal. unfold fourier_transform in E. destruct (first_step s) as [dt|]; [cbn [bind] in E|discriminate].
  match type of E with Ok ?b = Ok _ => assert (EX : X = b) by congruence end. clear E. subst X.
  assert (Ld : length (dft (map RtoC (vals s))) = length s) by (rewrite dft_length, map_length, vals_length; reflexivity).
  rewrite firstn_all2 by lia.
  assert (MS : forall {A B} (l1 : list A) (l2 : list B), length l1 = length l2 -> map snd (combine l1 l2) = l2).
  { clear. intros A B. induction l1 as [|x l1 IH]; intros [|y l2] H; try discriminate; [reflexivity|]. cbn [combine map snd]. rewrite IH by (cbn in H; lia). reflexivity. }
  apply MS. rewrite map_length, seq_length. lia.
Qed.

(** Energy: the squared amplitudes of the double-sided spectrum sum to N times the
    squared samples. *)
Lemma csum_real n f : csum n (fun k => RtoC (f k)) = RtoC (rsum (map f (seq 0 n))).
Proof. induction n as [|n IH]; [reflexivity|]. cbn [csum]. rewrite IH, seq_S, map_app, rsum_app, <- RtoC_plus. f_equal. cbn [map rsum Nat.add]. ring. Qed.
Theorem C32_parseval : forall s A, fourier_amplitude s true = Ok A ->
  rsum (map (fun y => y ^ 2) (vals A)) = INR (length s) * rsum (map (fun y => y ^ 2) (vals s)).
Proof.
  intros s A E. unfold fourier_amplitude in E. destruct (fourier_transform s true) as [X|] eqn:EX; [cbn [bind] in E|discriminate]. assert (A = map (fun p => (fst p, Cmod (snd p))) X) by congruence. subst A. clear E.
  pose proof (C32_invertible s X EX) as INV. assert (MX : map snd X = dft (map RtoC (vals s))) by (rewrite <- INV, dft_idft; reflexivity).
  pose proof (parseval (map RtoC (vals s))) as P. rewrite map_length, vals_length in P. rewrite !csum_real in P. rewrite <- RtoC_mult in P. apply RtoC_inj in P.
  assert (SQ : forall (l : list C) (g : C -> R) n, length l = n -> map (fun k => g (nth k l (RtoC 0))) (seq 0 n) = map g l).
  { clear. intros l g n <-. induction l as [|c l IH]; [reflexivity|]. cbn [length seq map nth]. f_equal. rewrite <- seq_shift, map_map. exact IH. }
  rewrite (SQ (dft (map RtoC (vals s))) (fun z => Cmod z ^ 2)) in P by (rewrite dft_length, map_length, vals_length; reflexivity).
  rewrite (SQ (map RtoC (vals s)) (fun z => Cmod z ^ 2)) in P by (rewrite map_length, vals_length; reflexivity).
  rewrite <- MX, !map_map in P. unfold vals at 1. rewrite !map_map. cbn [snd]. rewrite P. f_equal. f_equal. apply map_ext. intros y. rewrite Cmod_R. rewrite RPow_abs. apply Rabs_pos_eq, pow2_ge_0.
Qed.

(** A harmonic with [j] cycles in the record has its whole amplitude in row [j], which
    is labelled with the frequency of [j + 1] cycles (finding). *)
Theorem C32_harmonic_row : forall s A j dt X, first_step s = Ok dt -> (0 < j)%nat -> (2 * j < length s)%nat ->
  (forall n, (n < length s)%nat -> nth n (vals s) 0 = A * cos (2 * PI * INR j * INR n / INR (length s))) ->
  fourier_amplitude s false = Ok X ->
  (j < length X)%nat /\
  nth j X (0, 0) = ((INR j + 1) / (INR (length s) * dt), Rabs A * INR (length s) / 2) /\
  forall k, (k < length X)%nat -> k <> j -> snd (nth k X (0, 0)) = 0.
Proof.
  intros s A j dt X F Hj Hj2 Hv EX. unfold fourier_amplitude in EX. destruct (proj1 (C32_shape s false) dt F) as (Y & EY & LY & HF). rewrite EY in EX. cbn [bind] in EX.
  assert (X = map (fun p => (fst p, Cmod (snd p))) Y) by congruence. subst X. clear EX. rewrite map_length. set (N := length s) in *.
  assert (JN : (j < length Y)%nat). { rewrite LY. cbn [rows]. apply Nat.div_le_lower_bound; lia. }
  assert (VAL : forall k, (k < length Y)%nat -> snd (nth k Y (0, RtoC 0)) = (if Nat.eq_dec j k then RtoC (A * INR N / 2) else RtoC 0)).
  { intros k Hk. destruct (transform_value s false Y k EY Hk) as [Kn ->]. rewrite dft_nth by (rewrite map_length, vals_length; exact Kn). rewrite map_length, vals_length. fold N.
    assert (K2 : (2 * k < N + 1)%nat). { rewrite LY in Hk. cbn [rows] in Hk. pose proof (Nat.div_mod (N + 1) 2 ltac:(lia)). pose proof (Nat.mod_upper_bound (N + 1) 2 ltac:(lia)). fold N in Hk. lia. }
    assert (HN : INR N <> 0) by (apply not_0_INR; lia).
    rewrite (csum_ext N _ (fun n => Cplus (Cmult (RtoC (A / 2)) (Cmult (cis (angle N n j)) (cis (- angle N n k)))) (Cmult (RtoC (A / 2)) (Cmult (cis (angle N n (N - j))) (cis (- angle N n k)))))).
    - rewrite csum_plus, !csum_scal, !orthogonality by lia. destruct (Nat.eq_dec (N - j) k) as [Q|_]; [lia|]. destruct (Nat.eq_dec j k); [rewrite <- !RtoC_mult, <- RtoC_plus|rewrite <- !RtoC_mult, <- RtoC_plus]; f_equal; field.
    - intros n Hn. rewrite nth_RtoC, Hv by exact Hn. rewrite (angle_sym N n (N - j)), angle_reflect by lia. rewrite (angle_sym N n k), (angle_sym N n j).
      replace (2 * PI * INR j * INR n / INR N) with (angle N j n) by (unfold angle; field; exact HN).
      replace (Cplus (Cmult (RtoC (A / 2)) (Cmult (cis (angle N j n)) (cis (- angle N k n)))) (Cmult (RtoC (A / 2)) (Cmult (cis (- angle N j n)) (cis (- angle N k n)))))
        with (Cmult (Cmult (RtoC (A / 2)) (Cplus (cis (angle N j n)) (cis (- angle N j n)))) (cis (- angle N k n))) by ring.
      f_equal. rewrite cis_neg. unfold cis, Cconj, Cplus, Cmult, RtoC. cbn [fst snd]. f_equal; field. }
  split; [exact JN|].
  assert (NM : forall k, (k < length Y)%nat -> nth k (map (fun p => (fst p, Cmod (snd p))) Y) (0, 0) = (fst (nth k Y (0, RtoC 0)), Cmod (snd (nth k Y (0, RtoC 0))))).
  { intros k Hk. rewrite (nth_indep _ (0, 0) (fst (0, RtoC 0), Cmod (snd (0, RtoC 0)))) by (rewrite map_length; exact Hk). rewrite (map_nth (fun p => (fst p, Cmod (snd p)))). reflexivity. }
  split.
  - rewrite NM by exact JN. rewrite HF by exact JN. rewrite VAL by exact JN. destruct (Nat.eq_dec j j); [|congruence]. rewrite Cmod_R. f_equal.
    assert (0 <= INR N) by apply pos_INR. unfold Rdiv. rewrite !Rabs_mult, (Rabs_pos_eq (INR N)) by assumption. rewrite (Rabs_pos_eq (/ 2)) by lra. reflexivity.
  - intros k Hk Hkj. rewrite NM by exact Hk. cbn [snd]. rewrite VAL by exact Hk. destruct (Nat.eq_dec j k); [congruence|]. apply Cmod_0.
Qed.

(** The mean of the record is the first row, labelled with a positive frequency (finding). *)
Theorem C32_first_row_is_the_sum : forall s ds dt X, first_step s = Ok dt -> fourier_transform s ds = Ok X ->
  nth 0 X (0, RtoC 0) = (1 / (INR (length s) * dt), RtoC (rsum (vals s))).
Proof.
  intros s ds dt X F EX. pose proof (first_step_len s dt F) as L. destruct (proj1 (C32_shape s ds) dt F) as (X' & EX' & LX & HF). assert (X' = X) by congruence. subst X'.
  assert (K : (0 < length X)%nat). { rewrite LX. destruct ds; cbn [rows]; [lia|]. apply Nat.div_le_lower_bound; lia. }
  rewrite (surjective_pairing (nth 0 X (0, RtoC 0))). f_equal; [rewrite HF by exact K; cbn [INR]; f_equal; ring|].
  destruct (transform_value s ds X 0 EX K) as [K1 ->]. rewrite dft_nth by (rewrite map_length, vals_length; lia). rewrite map_length, vals_length.
  rewrite (csum_ext _ _ (fun n => RtoC (nth n (vals s) 0))).
  - rewrite csum_real. f_equal. f_equal. rewrite <- (vals_length s). generalize (vals s). clear. induction l as [|a l IH]; [reflexivity|]. cbn [length seq map nth]. f_equal. rewrite <- seq_shift, map_map. exact IH.
  - intros n _. rewrite nth_RtoC. unfold angle. cbn [INR]. rewrite Rmult_0_l, Rmult_0_r. unfold Rdiv. rewrite Rmult_0_l, Ropp_0, cis_0. ring.
Qed.

(** A record meeting the hypotheses: one cycle of a cosine in four samples. *)
Example C32_instance : exists X, fourier_amplitude [(0, 3); (1/2, 0); (1, -3); (3/2, 0)] false = Ok X /\ nth 1 X (0, 0) = ((1 + 1) / (4 * (1/2 - 0)), 3 * 4 / 2).
Proof.
  set (s := [(0, 3); (1/2, 0); (1, -3); (3/2, 0)]). assert (F : first_step s = Ok (1/2 - 0)) by reflexivity.
  destruct (proj1 (C32_shape s false) _ F) as (Y & EY & _ & _). exists (map (fun p => (fst p, Cmod (snd p))) Y). split; [unfold fourier_amplitude; rewrite EY; reflexivity|].
  destruct (C32_harmonic_row s 3 1 (1/2 - 0) (map (fun p => (fst p, Cmod (snd p))) Y) F) as (_ & H & _); [lia|cbn; lia| |unfold fourier_amplitude; rewrite EY; reflexivity|].
  - intros n Hn. cbn in Hn. cbn [length s INR].
    destruct n as [|[|[|[|n]]]]; [| | | |lia]; cbn [vals map snd s nth INR].
    + replace (2 * PI * 1 * 0 / (1 + 1 + 1 + 1)) with 0 by field. rewrite cos_0. ring.
    + replace (2 * PI * 1 * 1 / (1 + 1 + 1 + 1)) with (PI / 2) by field. rewrite cos_PI2. ring.
    + replace (2 * PI * 1 * (1 + 1) / (1 + 1 + 1 + 1)) with PI by field. rewrite cos_PI. ring.
    + replace (2 * PI * 1 * (1 + 1 + 1) / (1 + 1 + 1 + 1)) with (3 * (PI / 2)) by field. rewrite cos_3PI2. ring.
  - rewrite H. cbn [length s INR]. rewrite Rabs_pos_eq by lra. f_equal; lra.
Qed.

(** ** C82 transfer function of two records *)

Definition steps_close (a b : R) : Prop := Rabs (a - b) <= 1 / 1000000 + 1 / 100000 * Rabs b.
Lemma close6_spec a b : reflect (steps_close a b) (close6 a b).
Proof. apply Rleb_spec. Qed.

(** Complex spectrum value of row [k]. *)
Definition spec (s : signal) (k : nat) : C := csum (length s) (fun n => Cmult (RtoC (nth n (vals s) 0)) (cis (- (2 * PI * INR k * INR n / INR (length s))))).
Lemma spec_dft s k : (k < length s)%nat -> nth k (dft (map RtoC (vals s))) (RtoC 0) = spec s k.
Proof.
  intros H. rewrite dft_nth by (rewrite map_length, vals_length; exact H). rewrite map_length, vals_length. apply csum_ext. intros n _. rewrite nth_RtoC. do 3 f_equal. unfold angle. field. apply not_0_INR. lia.
Qed.

(** Exactly when a transfer function is returned. *)
Theorem C82_accepts_iff : forall s_in s_out amp smooth,
  (exists t, calc_transfer_function s_in s_out amp smooth = Ok t) <->
  (2 <= length s_in)%nat /\ length s_out = length s_in /\
  (forall d1 d2, first_step s_in = Ok d1 -> first_step s_out = Ok d2 -> steps_close d1 d2) /\
  (smooth = true -> amp = true /\ (29 <= length s_in)%nat).
Proof.
  intros s1 s2 amp smooth. unfold calc_transfer_function. destruct (Nat.lt_ge_cases (length s1) 2) as [L1|L1].
  { rewrite first_step_err by exact L1. cbn [bind]. split; [intros [t H]; discriminate|lia]. }
  destruct (first_step_ok s1 L1) as (d1 & F1 & _). rewrite F1. cbn [bind]. destruct (Nat.lt_ge_cases (length s2) 2) as [L2|L2].
  { rewrite first_step_err by exact L2. cbn [bind]. split; [intros [t H]; discriminate|lia]. }
  destruct (first_step_ok s2 L2) as (d2 & F2 & _). rewrite F2. cbn [bind]. destruct (close6_spec d1 d2) as [Hc|Hc]; cbn [negb].
  2:{ split; [intros [t H]; discriminate|]. intros (_ & _ & H & _). exfalso. apply Hc, H; reflexivity. }
  destruct (Nat.eqb_spec (length s1) (length s2)) as [HL|HL]; cbn [negb]; [|split; [intros [t H]; discriminate|lia]].
  destruct (proj1 (C32_shape s1 false) d1 F1) as (X & EX & LX & _). destruct (proj1 (C32_shape s2 false) d2 F2) as (Y & EY & LY & _). rewrite EX, EY. cbn [bind].
  set (P := (2 <= length s1)%nat /\ length s2 = length s1 /\ (forall d1 d2, first_step s1 = Ok d1 -> first_step s2 = Ok d2 -> steps_close d1 d2)).
  assert (HP : P). { split; [exact L1|]. split; [congruence|]. intros a b Ea Eb. assert (a = d1) by congruence. assert (b = d2) by congruence. subst. exact Hc. }
  destruct smooth; [destruct amp|]; cbn [negb andb].
  - unfold smooth_o, lin_smooth. rewrite !map_length, combine_length, LX, LY, <- HL, Nat.min_id. cbn [rows].
    destruct (Nat.ltb_spec (Nat.div (length s1 + 1) 2) 15) as [H15|H15].
    + cbn [bind]. split; [intros [t H]; discriminate|]. intros (_ & _ & _ & H). destruct (H eq_refl) as [_ H29]. exfalso.
      assert (15 <= Nat.div (length s1 + 1) 2)%nat by (apply Nat.div_le_lower_bound; lia). lia.
    + change (Nat.ltb 15 3) with false. cbn [bind]. split; [intros _|intros _; eauto]. unfold P in HP. destruct HP as (A & B & C). split; [exact A|]. split; [congruence|]. split; [intros a b Ea Eb; assert (a = d1) by congruence; assert (b = d2) by congruence; subst; exact Hc|]. intros _. split; [reflexivity|].
      pose proof (Nat.div_mod (length s1 + 1) 2 ltac:(lia)). pose proof (Nat.mod_upper_bound (length s1 + 1) 2 ltac:(lia)). lia.
  - split; [intros [t H]; discriminate|]. intros (_ & _ & _ & H). destruct (H eq_refl). discriminate.
  - split; [intros _|intros _; destruct amp; cbn [negb andb]; eauto]. unfold P in HP. destruct HP as (A & B & C). split; [exact A|]. split; [congruence|]. split; [intros a b Ea Eb; assert (a = d1) by congruence; assert (b = d2) by congruence; subst; exact Hc|]. intros; discriminate.
Qed.

Lemma czerob_spec z : reflect (z = RtoC 0) (czerob z).
Proof.
  unfold czerob. destruct z as [x y]. cbn [fst snd]. destruct (Reqb_spec x 0) as [->|H]; [destruct (Reqb_spec y 0) as [->|H']|]; cbn [andb]; constructor; [reflexivity| |]; intros E; injection E; intros; contradiction.
Qed.

Lemma tf_value s1 s2 l : calc_transfer_function s1 s2 false false = Ok (TFc l) ->
  length l = Nat.div (length s1 + 1) 2 /\ forall k, (k < length l)%nat -> (k < length s1)%nat /\ length s2 = length s1 /\
    (exists dt, first_step s1 = Ok dt /\ fst (nth k l (0, None)) = (INR k + 1) / (INR (length s1) * dt)) /\ snd (nth k l (0, None)) = cdivo (spec s2 k) (spec s1 k).
Proof.
  intros H. destruct (proj1 (C82_accepts_iff s1 s2 false false) (ex_intro _ _ H)) as (L1 & HL & _ & _).
  unfold calc_transfer_function in H. destruct (first_step_ok s1 L1) as (d1 & F1 & _). destruct (first_step_ok s2 ltac:(lia)) as (d2 & F2 & _). rewrite F1, F2 in H. cbn [bind] in H.
  destruct (negb (close6 d1 d2)); [discriminate|]. destruct (negb (Nat.eqb _ _)); [discriminate|].
  destruct (proj1 (C32_shape s1 false) d1 F1) as (X & EX & LX & HX). destruct (proj1 (C32_shape s2 false) d2 F2) as (Y & EY & LY & _). rewrite EX, EY in H. cbn [bind negb andb] in H.
  match type of H with Ok (TFc ?b) = Ok (TFc _) => assert (El : l = b) by congruence end. clear H. subst l.
  assert (LC : length (combine X Y) = length X) by (rewrite combine_length, LX, LY, HL, Nat.min_id; reflexivity).
  assert (LL : length (combine (map fst X) (map (fun p : R * C * (R * C) => cdivo (snd (snd p)) (snd (fst p))) (combine X Y))) = length X).
  { rewrite combine_length, !map_length, LC, Nat.min_id. reflexivity. }
  rewrite LL. split; [exact LX|]. intros k Hk.
  destruct (transform_value s1 false X k EX Hk) as [K1 V1]. destruct (transform_value s2 false Y k EY ltac:(congruence)) as [K2 V2]. rewrite spec_dft in V1 by exact K1. rewrite spec_dft in V2 by exact K2.
  split; [exact K1|]. split; [exact HL|]. rewrite (nth_combine _ _ k 0 None) by (rewrite !map_length, LC; reflexivity). cbn [fst snd]. split.
  - exists d1. split; [exact F1|]. rewrite (nth_indep (map fst X) 0 (fst (0, RtoC 0))) by (rewrite map_length; exact Hk). rewrite (map_nth fst X). apply HX, Hk.
  - set (g := fun p : R * C * (R * C) => cdivo (snd (snd p)) (snd (fst p))).
    rewrite (nth_indep (map g (combine X Y)) None (g ((0, RtoC 0), (0, RtoC 0)))) by (rewrite map_length, LC; exact Hk). rewrite (map_nth g). rewrite (nth_combine X Y) by congruence. unfold g. cbn [fst snd]. rewrite V1, V2. reflexivity.
Qed.

(** Row by row the transfer function is the quotient of the two spectra: it maps the
    input spectrum onto the output spectrum, and is undefined exactly where the input
    has no energy; the labels are those of the input spectrum. *)
Theorem C82_quotient : forall s_in s_out l, calc_transfer_function s_in s_out false false = Ok (TFc l) ->
  length l = Nat.div (length s_in + 1) 2 /\
  forall k, (k < length l)%nat ->
    (snd (nth k l (0, None)) = None <-> spec s_in k = RtoC 0) /\
    (forall t, snd (nth k l (0, None)) = Some t -> Cmult t (spec s_in k) = spec s_out k) /\
    (forall dt, first_step s_in = Ok dt -> fst (nth k l (0, None)) = (INR k + 1) / (INR (length s_in) * dt)).
Proof.
  intros s1 s2 l H. destruct (tf_value s1 s2 l H) as [L V]. split; [exact L|]. intros k Hk. destruct (V k Hk) as (_ & _ & (dt & F & EF) & E).
  unfold cdivo in E. destruct (czerob_spec (spec s1 k)) as [Z|Z]; rewrite E; split.
  - tauto.
  - split; [discriminate|]. intros d Fd. rewrite EF. congruence.
  - split; [discriminate|tauto].
  - split; [|intros d Fd; rewrite EF; congruence]. intros t [= <-]. field. exact Z.
Qed.

(** A record against itself: 1 wherever the record has energy. *)
Theorem C82_self : forall s l k t, calc_transfer_function s s false false = Ok (TFc l) -> (k < length l)%nat -> snd (nth k l (0, None)) = Some t -> t = RtoC 1.
Proof.
  intros s l k t H Hk E. destruct (tf_value s s l H) as [_ V]. destruct (V k Hk) as (_ & _ & _ & E'). rewrite E in E'. unfold cdivo in E'. destruct (czerob_spec (spec s k)) as [Z|Z]; [discriminate|].
  injection E' as ->. field. exact Z.
Qed.

(** Transfer functions compose. *)
Theorem C82_chain : forall s1 s2 s3 l12 l23 l13 k t12 t23, calc_transfer_function s1 s2 false false = Ok (TFc l12) -> calc_transfer_function s2 s3 false false = Ok (TFc l23) -> calc_transfer_function s1 s3 false false = Ok (TFc l13) ->
  (k < length l12)%nat -> snd (nth k l12 (0, None)) = Some t12 -> snd (nth k l23 (0, None)) = Some t23 -> snd (nth k l13 (0, None)) = Some (Cmult t12 t23).
Proof.
  intros s1 s2 s3 l12 l23 l13 k t12 t23 H12 H23 H13 Hk E12 E23. destruct (tf_value _ _ _ H12) as [L12 V12]. destruct (tf_value _ _ _ H23) as [L23 V23]. destruct (tf_value _ _ _ H13) as [L13 V13].
  destruct (V12 k Hk) as (_ & HL & _ & E). rewrite E12 in E. destruct (V23 k ltac:(rewrite L23, HL, <- L12; exact Hk)) as (_ & _ & _ & E'). rewrite E23 in E'. destruct (V13 k ltac:(rewrite L13, <- L12; exact Hk)) as (_ & _ & _ & ->).
  unfold cdivo in *. destruct (czerob_spec (spec s1 k)) as [Z1|Z1]; [discriminate|]. destruct (czerob_spec (spec s2 k)) as [Z2|Z2]; [discriminate|]. injection E as ->. injection E' as ->. f_equal. field. split; assumption.
Qed.

(** An output proportional to the input has a constant transfer function. *)
Theorem C82_gain : forall s c l k t, calc_transfer_function s (with_vals s (map (Rmult c) (vals s))) false false = Ok (TFc l) ->
  (k < length l)%nat -> snd (nth k l (0, None)) = Some t -> t = RtoC c.
Proof.
  intros s c l k t H Hk E. destruct (tf_value _ _ _ H) as [L V]. destruct (V k Hk) as (Kn & HL & _ & E'). rewrite E in E'. unfold cdivo in E'. destruct (czerob_spec (spec s k)) as [Z|Z]; [discriminate|].
  assert (Vw : vals (with_vals s (map (Rmult c) (vals s))) = map (Rmult c) (vals s)).
  { unfold with_vals, vals at 1. assert (MS : forall (l1 l2 : list R), length l1 = length l2 -> map snd (combine l1 l2) = l2).
    { clear. induction l1 as [|x l1 IH]; intros [|y l2] H; try discriminate; [reflexivity|]. cbn [combine map snd]. rewrite IH by (cbn in H; lia). reflexivity. }
    apply MS. unfold times, vals. rewrite !map_length. reflexivity. }
  assert (ES : spec (with_vals s (map (Rmult c) (vals s))) k = Cmult (RtoC c) (spec s k)).
  { rewrite <- spec_dft by lia. rewrite Vw. rewrite dft_scale by (rewrite vals_length; exact Kn). rewrite spec_dft by exact Kn. reflexivity. }
  rewrite ES in E'. injection E' as ->. field. exact Z.
Qed.

(** The amplitude output is the modulus of the complex one. *)
Theorem C82_amplitude : forall s_in s_out l a, calc_transfer_function s_in s_out false false = Ok (TFc l) -> calc_transfer_function s_in s_out true false = Ok (TFr a) ->
  a = map (fun p => (fst p, match snd p with Some z => Some (Cmod z) | None => None end)) l.
Proof.
  intros s1 s2 l a H H'. unfold calc_transfer_function in *. destruct (first_step s1); [cbn [bind] in *|discriminate]. destruct (first_step s2); [cbn [bind] in *|discriminate].
  destruct (negb (close6 _ _)); [discriminate|]. destruct (negb (Nat.eqb _ _)); [discriminate|]. destruct (fourier_transform s1 false) as [X|]; [cbn [bind] in *|discriminate]. destruct (fourier_transform s2 false) as [Y|]; [cbn [bind] in *|discriminate].
  cbn [negb andb] in *. match type of H with Ok (TFc ?b) = Ok (TFc _) => assert (El : l = b) by congruence end. match type of H' with Ok (TFr ?b) = Ok (TFr _) => assert (Ea : a = b) by congruence end. clear H H'. subst.
  generalize (map (fun p : R * C * (R * C) => cdivo (snd (snd p)) (snd (fst p))) (combine X Y)). generalize (map fst X). clear. induction l as [|x l IH]; intros [|y l']; try reflexivity. cbn [map combine fst snd]. rewrite IH. reflexivity.
Qed.

Example C82_instance : exists l, calc_transfer_function [(0, 1); (1, 0)] [(0, 2); (1, 0)] false false = Ok (TFc l) /\ snd (nth 0 l (0, None)) = Some (RtoC 2).
Proof.
  set (s := [(0, 1); (1, 0)]).
  destruct (proj2 (C82_accepts_iff s [(0, 2); (1, 0)] false false)) as [t Et].
  { split; [cbn; lia|]. split; [reflexivity|]. split; [|discriminate]. intros d1 d2 [= <-] [= <-]. unfold steps_close. replace (1 - 0 - (1 - 0)) with 0 by ring. rewrite Rabs_R0. pose proof (Rabs_pos (1 - 0)). lra. }
  assert (exists l, t = TFc l) as [l ->].
  { unfold calc_transfer_function in Et. destruct (first_step s); [cbn [bind] in *|discriminate]. destruct (first_step _); [cbn [bind] in *|discriminate].
    destruct (negb (close6 _ _)); [discriminate|]. destruct (negb (Nat.eqb _ _)); [discriminate|]. destruct (fourier_transform s false) as [X|]; [cbn [bind] in *|discriminate]. destruct (fourier_transform _ false) as [Y|]; [cbn [bind] in *|discriminate].
    cbn [negb andb] in Et. injection Et as <-. eauto. }
  exists l. split; [exact Et|]. destruct (tf_value _ _ _ Et) as [L V]. assert (L1 : length l = 1%nat) by (rewrite L; reflexivity). destruct (V 0%nat ltac:(lia)) as (_ & _ & _ & ->).
  assert (S1 : spec s 0 = RtoC 1). { unfold spec. cbn [s length csum vals map snd nth INR]. unfold Rdiv. rewrite !Rmult_0_r, !Rmult_0_l, Ropp_0, cis_0. ring. }
  assert (S2 : spec [(0, 2); (1, 0)] 0 = RtoC 2). { unfold spec. cbn [s length csum vals map snd nth INR]. unfold Rdiv. rewrite !Rmult_0_r, !Rmult_0_l, Ropp_0, cis_0. ring. }
  rewrite S1, S2. unfold cdivo. destruct (czerob_spec (RtoC 1)) as [E|N]; [apply RtoC_inj in E; lra|]. f_equal. field. exact N.
Qed.
