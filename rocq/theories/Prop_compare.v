(** C93: comparison of two motions. *)
From Coq Require Import Reals List Bool ZArith Lia Lra.
From Coquelicot Require Import Complex.
From Coq Require Import List.
From Verif Require Import Base M_generic P_generic M_profile P_profile M_motion P_motion Prop_motion M_interp P_interp M_soil M_dft P_dft M_signal Prop_fourier Prop_filter Prop_smooth M_amplify M_freqspec Prop_freqspec M_results M_gmsignal Prop_gmsignal.
Import ListNotations.
Open Scope list_scope.
Open Scope R_scope.

(** ** The common grid *)
Definition small_step (a b : signal) : R := Rmin (step_of a) (step_of b).
Definition late_end (a b : signal) : R := Rmax (last (times a) 0) (last (times b) 0).

(** [n] grid times k dt, k from 1, reach the later end and no further than needed. *)
Definition grid_size (a b : signal) (n : nat) : Prop :=
  (INR n - 1) * small_step a b < late_end a b <= INR n * small_step a b.
Definition grid_times (dt : R) (n : nat) : list R := map (fun k => INR (S k) * dt) (seq 0 n).

Lemma grid_length dt n : length (grid_times dt n) = n.
Proof. unfold grid_times. rewrite map_length, seq_length. reflexivity. Qed.
Lemma grid_nth dt n k : (k < n)%nat -> nth k (grid_times dt n) 0 = INR (S k) * dt.
Proof. intros H. unfold grid_times. rewrite nth_map_seq by exact H. reflexivity. Qed.
Lemma linspace_grid dt n : linspace dt (dt * INR n) n = grid_times dt n.
Proof.
  apply (list_ext 0); [rewrite P_generic.linspace_length, grid_length; reflexivity|]. intros k Hk. rewrite P_generic.linspace_length in Hk. rewrite grid_nth by exact Hk.
  destruct (Nat.eq_dec n 1) as [->|N].
  - assert (k = 0)%nat by lia. subst k. cbn. lra.
  - rewrite (Rmult_comm dt (INR n)). apply linspace_multiples; lia.
Qed.

Lemma step_nth (s : signal) : step_of s = nth 1 (times s) 0 - nth 0 (times s) 0.
Proof. reflexivity. Qed.

Lemma align_ok a b n : (2 <= length a)%nat -> (2 <= length b)%nat -> 0 < small_step a b -> grid_size a b n ->
  align (times a) (times b) = Ok (grid_times (small_step a b) n).
Proof.
  intros La Lb Hd [G1 G2]. unfold align. rewrite !times_length. rewrite (proj2 (Nat.ltb_ge _ _) La), (proj2 (Nat.ltb_ge _ _) Lb). cbn [orb].
  rewrite <- !step_nth. fold (small_step a b) (late_end a b). set (dt := small_step a b) in *. set (T := late_end a b) in *.
  assert (E : ceil (T / dt) = Z.of_nat n).
  { pose proof (ceil_spec (T / dt)) as [C1 C2].
    assert (Q : T / dt * dt = T) by (field; lra). rewrite INR_IZR_INZ in G1, G2.
    apply Z.le_antisymm; apply Zlt_succ_le, lt_IZR; unfold Z.succ; rewrite plus_IZR.
    - assert (T / dt <= IZR (Z.of_nat n)) by (apply Rmult_le_reg_r with dt; lra). lra.
    - assert (IZR (Z.of_nat n) - 1 < T / dt) by (apply Rmult_lt_reg_r with dt; lra). lra. }
  rewrite E. destruct (Z.ltb_spec (Z.of_nat n) 0); [lia|]. rewrite Nat2Z.id, <- INR_IZR_INZ, linspace_grid. reflexivity.
Qed.
Lemma align_short a b : ~ ((2 <= length a)%nat /\ (2 <= length b)%nat) -> align (times a) (times b) = Err ValueError.
Proof.
  intros H. unfold align. rewrite !times_length. destruct (Nat.ltb_spec (length a) 2), (Nat.ltb_spec (length b) 2); cbn [orb]; try reflexivity. exfalso. apply H. lia.
Qed.
Lemma align_negative a b : (2 <= length a)%nat -> (2 <= length b)%nat -> 0 < small_step a b -> late_end a b <= - small_step a b -> align (times a) (times b) = Err ValueError.
Proof.
  intros La Lb Hd HT. unfold align. rewrite !times_length. rewrite (proj2 (Nat.ltb_ge _ _) La), (proj2 (Nat.ltb_ge _ _) Lb). cbn [orb].
  rewrite <- !step_nth. fold (small_step a b) (late_end a b). set (dt := small_step a b) in *. set (T := late_end a b) in *.
  pose proof (ceil_spec (T / dt)) as [C1 C2]. assert (Q : T / dt * dt = T) by (field; lra).
  assert (T / dt <= -1) by (apply Rmult_le_reg_r with dt; lra). destruct (Z.ltb_spec (ceil (T / dt)) 0) as [|G]; [reflexivity|]. apply IZR_le in G. lra.
Qed.
Lemma grid_size_exists a b : 0 < small_step a b -> - small_step a b < late_end a b -> exists n, grid_size a b n.
Proof.
  intros Hd HT. unfold grid_size. set (dt := small_step a b) in *. set (T := late_end a b) in *.
  pose proof (ceil_spec (T / dt)) as [C1 C2]. assert (Q : T / dt * dt = T) by (field; lra).
  assert (-1 < T / dt) by (apply Rmult_lt_reg_r with dt; lra). assert (Hc : (-1 < ceil (T / dt))%Z) by (apply lt_IZR; lra).
  exists (Z.to_nat (ceil (T / dt))). rewrite INR_IZR_INZ, Z2Nat.id by lia. split; nra.
Qed.

(** ** Records on the grid *)
Definition on_grid (s : signal) (dt : R) (n : nat) (y : signal) : Prop :=
  times y = grid_times dt n /\ forall k, (k < n)%nat -> pl_value s (INR (S k) * dt) (nth k (vals y) 0).

Lemma interp_at s t : (2 <= length s)%nat -> exists y, np_interp s t = Ok y /\ length y = length t /\ forall k, (k < length t)%nat -> interp1 s (nth k t 0) = Ok (nth k y 0).
Proof. intros H. apply np_interp_ok. destruct s; [cbn in H; lia|discriminate]. Qed.

Lemma combine_parts (t y : list R) : length y = length t -> times (combine t y) = t /\ vals (combine t y) = y /\ length (combine t y) = length t.
Proof.
  intros H. unfold times, vals. rewrite combine_length. split; [|split; [|lia]].
  - apply combine_fst. auto.
  - apply combine_snd. auto.
Qed.

Lemma interp1_on s x y : incr s -> interp1 s x = Ok y -> pl_value s x y.
Proof.
  intros Hi E. destruct s as [|p s]; [discriminate|]. destruct (interp1_spec (p :: s) x Hi) as (y' & E' & P); [discriminate|]. rewrite E in E'. injection E' as ->. exact P.
Qed.

(** What a comparison is made of. *)
Record compared (a b : signal) (n : nat) (smooth : bool) (c : comparison) : Prop := mkcompared {
  cd_in : times (cm_in c) = grid_times (small_step a b) n /\ forall k, (k < n)%nat -> interp1 a (INR (S k) * small_step a b) = Ok (nth k (vals (cm_in c)) 0);
  cd_out : times (cm_out c) = grid_times (small_step a b) n /\ forall k, (k < n)%nat -> interp1 b (INR (S k) * small_step a b) = Ok (nth k (vals (cm_out c)) 0);
  cd_rows : length (cm_freq c) = Nat.div (n + 1) 2 /\ length (cm_tf c) = Nat.div (n + 1) 2;
  cd_freq : forall k, (k < Nat.div (n + 1) 2)%nat -> nth k (cm_freq c) 0 = (INR k + 1) / (INR n * small_step a b);
  cd_tf : forall k, (k < Nat.div (n + 1) 2)%nat -> nth k (cm_tf c) None = cdivo (spec (cm_out c) k) (spec (cm_in c) k);
  cd_smooth : match all_some (map amp_of (cm_tf c)) with
              | Some l => if smooth then exists y, cm_smooth c = Some y /\ log_smooth l 15 Hanning false None None None true (9 / 10) (9 / 10) = Ok y else cm_smooth c = None
              | None => cm_smooth c = None
              end }.

Lemma all_some_length {A} (l : list (option A)) : forall m, all_some l = Some m -> length m = length l.
Proof.
  induction l as [|[a|] l IH]; cbn [all_some]; intros m E; [injection E as <-; reflexivity| |discriminate].
  destruct (all_some l) as [r|]; cbn [option_map] in E; [|discriminate]. injection E as <-. cbn. rewrite (IH r eq_refl). reflexivity.
Qed.

Lemma smooth_default l : (15 <= length l)%nat -> exists y, log_smooth l 15 Hanning false None None None true (9 / 10) (9 / 10) = Ok y.
Proof.
  intros H. rewrite log_smooth_body by (try lia; discriminate). cbv beta iota. cbn [bind].
  destruct (proj2 (C35_lin_accepts l 15 Hanning)) as [y E]; [split; [exact H|right; discriminate]|]. rewrite E. cbn [bind].
  destruct (Rltb_spec (9 / 10) 0); [lra|]. destruct (Rltb_spec 1 (9 / 10)); [lra|]. cbn [orb]. eauto.
Qed.
Lemma smooth_short l : (length l < 15)%nat -> log_smooth l 15 Hanning false None None None true (9 / 10) (9 / 10) = Err ValueError.
Proof. intros H. unfold log_smooth. rewrite (proj2 (Nat.ltb_lt _ _) H). reflexivity. Qed.

Lemma compare_run a b n smooth : (2 <= length a)%nat -> (2 <= length b)%nat -> 0 < small_step a b -> grid_size a b n ->
  if Nat.ltb n 2 then compare_two_accel a b smooth = Err IndexError
  else if smooth && Nat.ltb n 29 then compare_two_accel a b smooth = Err ValueError
  else exists c, compare_two_accel a b smooth = Ok c /\ compared a b n smooth c.
Proof.
  intros La Lb Hd G. unfold compare_two_accel. rewrite (align_ok a b n La Lb Hd G). cbn [bind]. set (dt := small_step a b) in *. set (t := grid_times dt n).
  assert (Lt : length t = n) by apply grid_length.
  destruct (interp_at a t La) as (ya & Ea & Lya & Va). destruct (interp_at b t Lb) as (yb & Eb & Lyb & Vb). rewrite Ea, Eb. cbn [bind].
  destruct (combine_parts t ya Lya) as (Ta & VVa & LLa). destruct (combine_parts t yb Lyb) as (Tb & VVb & LLb).
  set (sa := combine t ya) in *. set (sb := combine t yb) in *.
  destruct (Nat.ltb_spec n 2) as [N2|N2].
  { rewrite (proj2 (C32_shape sa false)) by (rewrite LLa; lia). reflexivity. }
  destruct (fourier_ok sa false ltac:(rewrite LLa; lia)) as (X & EX & LX & HX). destruct (fourier_ok sb false ltac:(rewrite LLb; lia)) as (Y & EY & LY & HY).
  rewrite EX, EY. cbn [bind]. rewrite LLa, Lt in LX, HX. rewrite LLb, Lt in LY, HY. cbn [rows] in LX, LY.
  set (tf := map (fun p : R * C * (R * C) => cdivo (snd (snd p)) (snd (fst p))) (combine X Y)).
  assert (Ltf : length tf = Nat.div (n + 1) 2) by (unfold tf; rewrite map_length, combine_length; lia).
  assert (Htf : forall k, (k < Nat.div (n + 1) 2)%nat -> nth k tf None = cdivo (spec sb k) (spec sa k)).
  { intros k Hk. unfold tf. rewrite (nth_indep _ None ((fun p : R * C * (R * C) => cdivo (snd (snd p)) (snd (fst p))) ((0, RtoC 0), (0, RtoC 0)))) by (rewrite map_length, combine_length; lia).
    rewrite (map_nth (fun p : R * C * (R * C) => cdivo (snd (snd p)) (snd (fst p)))). rewrite combine_nth by lia. rewrite HX, HY by lia. reflexivity. }
  assert (St : step_of sa = dt).
  { rewrite step_nth, Ta. unfold t. rewrite !grid_nth by lia. cbn [INR]. lra. }
  assert (B : forall sm, match all_some (map amp_of tf) with
              | Some l => if smooth then exists y, sm = Some y /\ log_smooth l 15 Hanning false None None None true (9 / 10) (9 / 10) = Ok y else sm = None
              | None => sm = None end -> compared a b n smooth (mkcmp sa sb (map fst X) tf sm)).
  { intros sm Hsm. constructor; cbn [cm_in cm_out cm_freq cm_tf cm_smooth]; fold dt.
    - split; [exact Ta|]. intros k Hk. rewrite VVa. rewrite <- Va by lia. unfold t. rewrite grid_nth by lia. reflexivity.
    - split; [exact Tb|]. intros k Hk. rewrite VVb. rewrite <- Vb by lia. unfold t. rewrite grid_nth by lia. reflexivity.
    - rewrite map_length. auto.
    - intros k Hk. rewrite (nth_map_fst X _ 0 (RtoC 0)), HX by lia. cbn [fst]. rewrite St. reflexivity.
    - exact Htf.
    - exact Hsm. }
  assert (R15 : (n < 29)%nat <-> (Nat.div (n + 1) 2 < 15)%nat).
  { split; intros H; [apply Nat.div_lt_upper_bound; lia|]. destruct (Nat.lt_ge_cases n 29) as [|Q]; [assumption|]. exfalso. pose proof (Nat.div_le_lower_bound (n + 1) 2 15). lia. }
  fold tf. destruct smooth; cbn [andb].
  2:{ cbn [bind]. eexists. split; [reflexivity|]. apply B. destruct (all_some (map amp_of tf)); reflexivity. }
  destruct (Nat.ltb_spec n 29) as [N29|N29].
  - destruct (all_some (map amp_of tf)) as [l|] eqn:El.
    + rewrite smooth_short; [reflexivity|]. rewrite (all_some_length _ _ El), map_length. apply R15 in N29. lia.
    + rewrite smooth_short; [reflexivity|]. rewrite map_length. apply R15 in N29. lia.
  - assert (H15 : (15 <= length tf)%nat) by lia.
    destruct (all_some (map amp_of tf)) as [l|] eqn:El.
    + destruct (smooth_default l) as [y Ey]; [rewrite (all_some_length _ _ El), map_length; exact H15|]. rewrite Ey. cbn [bind]. eexists. split; [reflexivity|].
      apply B. eauto.
    + destruct (smooth_default (map (fun _ => 0) tf)) as [y Ey]; [rewrite map_length; exact H15|]. rewrite Ey. cbn [bind]. eexists. split; [reflexivity|].
      apply B. reflexivity.
Qed.

(** ** Theorems *)
Lemma small_sym a b : small_step a b = small_step b a. Proof. apply Rmin_comm. Qed.
Lemma late_sym a b : late_end a b = late_end b a. Proof. apply Rmax_comm. Qed.
Lemma grid_lt a b n m : 0 < small_step a b -> grid_size a b n -> (n <= m)%nat <-> late_end a b <= INR m * small_step a b.
Proof.
  intros Hd [G1 G2]. split; intros H.
  - apply le_INR in H. nra.
  - destruct (Nat.le_gt_cases n m) as [|Q]; [assumption|]. exfalso. apply le_INR in Q. rewrite S_INR in Q. nra.
Qed.

(** Which comparisons succeed; with smoothing (the default) the later end must be more than
    28 steps. *)
Theorem C93_accepts_iff : forall sh m m2 flag smooth, live sh m -> live sh m2 ->
  let a := sig_at sh (m_accel m) in let b := sig_at sh (m_accel m2) in
  let dt := small_step a b in let T := late_end a b in 0 < dt ->
  ((exists c, gm_compare sh m (Inst m2) flag smooth = Ok c) <-> dt < T /\ (smooth = true -> 28 * dt < T)) /\
  (forall e, gm_compare sh m (Inst m2) flag smooth = Err e -> e = if Rltb (- dt) T && Rleb T dt then IndexError else ValueError) /\
  (forall o, (forall m', o <> Inst m') -> gm_compare sh m o flag smooth = Err TypeError).
Proof.
  intros sh m m2 flag smooth L1 L2 a b dt T Hd. split; [|split].
  3:{ intros [m'| |] H; [exfalso; apply (H m' eq_refl)|reflexivity|reflexivity]. }
  1,2: cbn [gm_compare]; fold a b.
  1,2: set (p := if flag then a else b); set (q := if flag then b else a).
  1,2: assert (E0 : (if flag then compare_two_accel a b smooth else compare_two_accel b a smooth) = compare_two_accel p q smooth) by (unfold p, q; destruct flag; reflexivity); rewrite E0; clear E0.
  1,2: assert (Ed : small_step p q = dt) by (unfold p, q, dt; destruct flag; [reflexivity|apply small_sym]).
  1,2: assert (ET : late_end p q = T) by (unfold p, q, T; destruct flag; [reflexivity|apply late_sym]).
  1,2: assert (Lp : (2 <= length p)%nat) by (unfold p; destruct flag; [apply L1|apply L2]).
  1,2: assert (Lq : (2 <= length q)%nat) by (unfold q; destruct flag; [apply L2|apply L1]).
  1,2: clearbody p q; rewrite <- Ed in *; rewrite <- ET; clear Ed ET.
  1,2: destruct (Rlt_le_dec (- small_step p q) (late_end p q)) as [HT|HT].
  - destruct (grid_size_exists p q Hd HT) as [n G]. pose proof (compare_run p q n smooth Lp Lq Hd G) as R0.
    pose proof (grid_lt p q n 1 Hd G) as I1. pose proof (grid_lt p q n 28 Hd G) as I2. cbn [INR] in I1. replace (INR 28) with 28 in I2 by (cbn; lra).
    destruct (Nat.ltb_spec n 2) as [N|N].
    { rewrite R0. split; [intros [c Q]; discriminate|]. intros [Q _]. assert (n <= 1)%nat as N1 by lia. apply I1 in N1. lra. }
    assert (1 * small_step p q < late_end p q) by (apply Rnot_le_lt; intros Q; apply I1 in Q; lia).
    destruct smooth; cbn [andb] in R0; [destruct (Nat.ltb_spec n 29) as [N'|N']|].
    + rewrite R0. split; [intros [c Q]; discriminate|]. intros [_ Q]. specialize (Q eq_refl). assert (n <= 28)%nat as N1 by lia. apply I2 in N1. lra.
    + destruct R0 as (c & -> & _). split; [|eauto]. intros _. split; [lra|]. intros _. apply Rnot_le_lt. intros Q. apply I2 in Q. lia.
    + destruct R0 as (c & -> & _). split; [|eauto]. intros _. split; [lra|discriminate].
  - unfold compare_two_accel. rewrite align_negative by assumption. cbn [bind]. split; [intros [c Q]; discriminate|]. intros [Q _]. lra.
  - intros e E. destruct (grid_size_exists p q Hd HT) as [n G]. pose proof (compare_run p q n smooth Lp Lq Hd G) as R0. pose proof (grid_lt p q n 1 Hd G) as I1. cbn [INR] in I1.
    destruct (Nat.ltb_spec n 2) as [N|N].
    { rewrite R0 in E. injection E as <-. assert (n <= 1)%nat as N1 by lia. apply I1 in N1. rewrite (proj2 (Rltb_true _ _) HT). rewrite (proj2 (Rleb_true _ _)) by lra. reflexivity. }
    assert (1 * small_step p q < late_end p q) by (apply Rnot_le_lt; intros Q; apply I1 in Q; lia).
    destruct (smooth && Nat.ltb n 29); [|destruct R0 as (c & R1 & _); rewrite R1 in E; discriminate].
    rewrite R0 in E. injection E as <-. rewrite (proj2 (Rleb_false _ _)) by lra. rewrite andb_false_r. reflexivity.
  - intros e E. unfold compare_two_accel in E. rewrite align_negative in E by assumption. cbn [bind] in E. injection E as <-. destruct (Rltb_spec (- small_step p q) (late_end p q)); [lra|reflexivity].
Qed.

Lemma compare_inv (a b : signal) smooth c : (2 <= length a)%nat -> (2 <= length b)%nat -> 0 < small_step a b -> compare_two_accel a b smooth = Ok c ->
  exists n, (2 <= n)%nat /\ (smooth = true -> (29 <= n)%nat) /\ grid_size a b n /\ compared a b n smooth c.
Proof.
  intros La Lb Hd E. destruct (Rlt_le_dec (- small_step a b) (late_end a b)) as [HT|HT].
  - destruct (grid_size_exists a b Hd HT) as [n G]. pose proof (compare_run a b n smooth La Lb Hd G) as R0. exists n.
    destruct (Nat.ltb_spec n 2) as [N|N]; [rewrite R0 in E; discriminate|]. destruct smooth; cbn [andb] in R0; [destruct (Nat.ltb_spec n 29) as [N'|N']; [rewrite R0 in E; discriminate|]|].
    1,2: destruct R0 as (c' & E' & K); rewrite E in E'; injection E' as <-; (split; [exact N|]; split; [first [intros _; exact N'|discriminate]|]; split; [exact G|exact K]).
  - unfold compare_two_accel in E. rewrite align_negative in E by assumption. discriminate.
Qed.

(** What is compared: both records on the grid k dt (k from 1), by straight lines between
    samples and constant outside; the ratio of their Fourier sums. *)
Theorem C93_result : forall sh m m2 smooth c, live sh m -> live sh m2 ->
  let a := sig_at sh (m_accel m) in let b := sig_at sh (m_accel m2) in let dt := small_step a b in
  0 < dt -> incr a -> incr b -> gm_compare sh m (Inst m2) true smooth = Ok c ->
  exists n, (2 <= n)%nat /\ grid_size a b n /\ on_grid a dt n (cm_in c) /\ on_grid b dt n (cm_out c) /\
    length (cm_freq c) = Nat.div (n + 1) 2 /\ length (cm_tf c) = Nat.div (n + 1) 2 /\
    forall k, (k < Nat.div (n + 1) 2)%nat ->
      nth k (cm_freq c) 0 = (INR k + 1) / (INR n * dt) /\
      (nth k (cm_tf c) None = None <-> spec (cm_in c) k = RtoC 0) /\
      (forall z, nth k (cm_tf c) None = Some z -> Cmult z (spec (cm_in c) k) = spec (cm_out c) k).
Proof.
  intros sh m m2 smooth c L1 L2 a b dt Hd Ia Ib E. cbn [gm_compare] in E. fold a b in E.
  destruct (compare_inv a b smooth c (proj2 L1) (proj2 L2) Hd E) as (n & N2 & _ & G & [C1 C2 C3 C4 C5 C6]). exists n. split; [exact N2|]. split; [exact G|].
  split; [split; [apply C1|intros k Hk; apply interp1_on; [exact Ia|apply C1, Hk]]|].
  split; [split; [apply C2|intros k Hk; apply interp1_on; [exact Ib|apply C2, Hk]]|]. split; [apply C3|]. split; [apply C3|].
  intros k Hk. rewrite (C4 k Hk), (C5 k Hk). split; [reflexivity|]. unfold cdivo. destruct (czerob_spec (spec (cm_in c) k)) as [Z|Z].
  - split; [split; auto|discriminate].
  - split; [split; [discriminate|intros Q; contradiction]|]. intros z Q. injection Q as <-. field. exact Z.
Qed.

(** Exchanging the two motions is the same as exchanging the flag; it exchanges the records
    and inverts every ratio. *)
Theorem C93_swap : forall sh m m2 smooth,
  gm_compare sh m (Inst m2) false smooth = gm_compare sh m2 (Inst m) true smooth /\
  (live sh m -> live sh m2 -> 0 < small_step (sig_at sh (m_accel m)) (sig_at sh (m_accel m2)) ->
   forall c d, gm_compare sh m (Inst m2) true smooth = Ok c -> gm_compare sh m (Inst m2) false smooth = Ok d ->
     cm_in d = cm_out c /\ cm_out d = cm_in c /\ cm_freq d = cm_freq c /\ length (cm_tf d) = length (cm_tf c) /\
     forall k z w, nth k (cm_tf c) None = Some z -> nth k (cm_tf d) None = Some w -> Cmult z w = RtoC 1).
Proof.
  intros sh m m2 smooth. split; [reflexivity|]. intros L1 L2 Hd c d Ec Ed. cbn [gm_compare] in Ec, Ed.
  set (a := sig_at sh (m_accel m)) in *. set (b := sig_at sh (m_accel m2)) in *.
  destruct (compare_inv a b smooth c (proj2 L1) (proj2 L2) Hd Ec) as (n & N2 & _ & G & [C1 C2 C3 C4 C5 C6]).
  assert (Hd' : 0 < small_step b a) by (rewrite small_sym; exact Hd).
  destruct (compare_inv b a smooth d (proj2 L2) (proj2 L1) Hd' Ed) as (n' & N2' & _ & G' & [D1 D2 D3 D4 D5 D6]).
  assert (n' = n).
  { pose proof (grid_lt a b n n' Hd G) as I1. pose proof (grid_lt b a n' n Hd' G') as I2. destruct G as [G1 G2], G' as [G1' G2']. rewrite small_sym, late_sym in G2'. rewrite (small_sym b a), (late_sym b a) in I2. apply Nat.le_antisymm; tauto. }
  subst n'. rewrite (small_sym b a) in *.
  assert (S : forall (x y : signal) p, times x = grid_times (small_step a b) n -> times y = grid_times (small_step a b) n ->
    (forall k, (k < n)%nat -> interp1 p (INR (S k) * small_step a b) = Ok (nth k (vals x) 0)) -> (forall k, (k < n)%nat -> interp1 p (INR (S k) * small_step a b) = Ok (nth k (vals y) 0)) -> x = y).
  { intros x y p Tx Ty Vx Vy. assert (Lx : length (vals x) = n) by (unfold vals; rewrite map_length, <- times_length, Tx; apply grid_length). assert (Ly : length (vals y) = n) by (unfold vals; rewrite map_length, <- times_length, Ty; apply grid_length).
    assert (EV : vals x = vals y). { apply (list_ext 0); [congruence|]. intros k Hk. rewrite Lx in Hk. specialize (Vx k Hk). specialize (Vy k Hk). congruence. }
    assert (P : forall s : signal, s = combine (times s) (vals s)) by (clear; induction s as [|[u v] s IH]; [reflexivity|cbn; f_equal; exact IH]).
    rewrite (P x), (P y), Tx, Ty, EV. reflexivity. }
  assert (E1 : cm_in d = cm_out c) by (apply (S _ _ b); [apply D1|apply C2|apply D1|apply C2]).
  assert (E2 : cm_out d = cm_in c) by (apply (S _ _ a); [apply D2|apply C1|apply D2|apply C1]).
  split; [exact E1|]. split; [exact E2|]. destruct C3 as [C3 C3'], D3 as [D3 D3'].
  split; [apply (list_ext 0); [congruence|]; intros k Hk; rewrite D4, C4 by lia; reflexivity|]. split; [congruence|].
  intros k z w Hz Hw. assert (Hk : (k < Nat.div (n + 1) 2)%nat) by (destruct (Nat.lt_ge_cases k (Nat.div (n + 1) 2)); [assumption|rewrite nth_overflow in Hz by lia; discriminate]).
  rewrite C5 in Hz by exact Hk. rewrite D5 in Hw by exact Hk. rewrite E1, E2 in Hw. unfold cdivo in Hz, Hw.
  destruct (czerob_spec (spec (cm_in c) k)); [discriminate|]. destruct (czerob_spec (spec (cm_out c) k)); [discriminate|]. injection Hz as <-. injection Hw as <-. field. auto.
Qed.

Lemma last_nth (l : list R) : last l 0 = nth (length l - 1) l 0.
Proof. induction l as [|x [|y l] IH]; [reflexivity|reflexivity|]. change (last (x :: y :: l) 0) with (last (y :: l) 0). rewrite IH. cbn [length]. rewrite !Nat.sub_succ, !Nat.sub_0_r. reflexivity. Qed.

(** ** Special comparisons *)
Definition times_by (c : R) (s : signal) : signal := map (fun p => (fst p, c * snd p)) s.
Lemma interp_from_scaled c x rest : forall x0 y0, interp_from x x0 (c * y0) (times_by c rest) = c * interp_from x x0 y0 rest.
Proof.
  induction rest as [|[x1 y1] rest IH]; intros x0 y0; cbn [times_by map interp_from fst snd]; [reflexivity|].
  destruct (Rltb x x1); [|apply IH]. destruct (Reqb x x0); [reflexivity|]. unfold Rdiv. ring.
Qed.
Lemma interp1_scaled c s x y : interp1 s x = Ok y -> interp1 (times_by c s) x = Ok (c * y).
Proof.
  destruct s as [|[x0 y0] s]; [discriminate|]. cbn [times_by map interp1 fst snd]. intros E. injection E as <-. destruct (Rltb x x0); [reflexivity|].
  fold (times_by c s). rewrite interp_from_scaled. reflexivity.
Qed.
Lemma times_by_times c s : times (times_by c s) = times s.
Proof. unfold times, times_by. rewrite map_map. reflexivity. Qed.
Lemma min_self x : Rmin x x = x. Proof. apply Rmin_left. lra. Qed.
Lemma max_self x : Rmax x x = x. Proof. apply Rmax_left. lra. Qed.
Lemma small_scaled c s : small_step s (times_by c s) = step_of s.
Proof. unfold small_step, step_of. rewrite times_by_times. apply min_self. Qed.

Lemma spec_scaled (x y : signal) c k : length y = length x -> (forall j, (j < length x)%nat -> nth j (vals y) 0 = c * nth j (vals x) 0) -> spec y k = Cmult (RtoC c) (spec x k).
Proof.
  intros L H. unfold spec. rewrite L, <- csum_scal. apply csum_ext. intros j Hj. rewrite H by exact Hj. rewrite RtoC_mult. ring.
Qed.

(** A motion compared with a multiple of itself: every finite ratio is the multiple, hence 1
    for a motion and itself. *)
Theorem C93_gain : forall sh m m2 g smooth c, live sh m -> live sh m2 -> 0 < step_of (sig_at sh (m_accel m)) ->
  sig_at sh (m_accel m2) = times_by g (sig_at sh (m_accel m)) -> gm_compare sh m (Inst m2) true smooth = Ok c ->
  forall z, In (Some z) (cm_tf c) -> z = RtoC g.
Proof.
  intros sh m m2 g smooth c L1 L2 Hd Em E z Hz. cbn [gm_compare] in E. set (a := sig_at sh (m_accel m)) in *. set (b := sig_at sh (m_accel m2)) in *.
  assert (Hd' : 0 < small_step a b) by (rewrite Em, small_scaled; exact Hd).
  destruct (compare_inv a b smooth c (proj2 L1) (proj2 L2) Hd' E) as (n & N2 & _ & G & [C1 C2 C3 C4 C5 C6]).
  apply (In_nth _ _ None) in Hz as (k & Hk & Ek). rewrite (proj2 C3) in Hk. rewrite C5 in Ek by exact Hk.
  assert (Lin : length (cm_in c) = n) by (rewrite <- times_length, (proj1 C1); apply grid_length). assert (Lout : length (cm_out c) = n) by (rewrite <- times_length, (proj1 C2); apply grid_length).
  assert (ES : spec (cm_out c) k = Cmult (RtoC g) (spec (cm_in c) k)).
  { apply spec_scaled; [congruence|]. intros j Hj. rewrite Lin in Hj. pose proof (proj2 C1 j Hj) as A. pose proof (proj2 C2 j Hj) as B. apply (interp1_scaled g) in A. rewrite Em in B at 1. rewrite A in B. injection B as B. symmetry. exact B. }
  rewrite ES in Ek. unfold cdivo in Ek. destruct (czerob_spec (spec (cm_in c) k)) as [Z|Z]; [discriminate|]. injection Ek as <-. field. exact Z.
Qed.

Lemma times_by_1 s : times_by 1 s = s.
Proof. unfold times_by. rewrite <- (map_id s) at 2. apply map_ext. intros [t v]; cbn. f_equal. ring. Qed.
Theorem C93_self : forall sh m smooth c, live sh m -> 0 < step_of (sig_at sh (m_accel m)) -> gm_compare sh m (Inst m) true smooth = Ok c ->
  cm_in c = cm_out c /\ (forall z, In (Some z) (cm_tf c) -> z = RtoC 1) /\
  (smooth = true -> (forall k, (k < length (cm_tf c))%nat -> spec (cm_in c) k <> RtoC 0) -> cm_smooth c = Some (repeat 1 (length (cm_tf c)))).
Proof.
  intros sh m smooth c L Hd E. assert (HG : forall z, In (Some z) (cm_tf c) -> z = RtoC 1).
  { apply (C93_gain sh m m 1 smooth c L L Hd); [symmetry; apply times_by_1|exact E]. }
  cbn [gm_compare] in E. set (a := sig_at sh (m_accel m)) in *. assert (Hd' : 0 < small_step a a) by (unfold small_step; rewrite min_self; exact Hd).
  pose proof E as E'. destruct (compare_inv a a smooth c (proj2 L) (proj2 L) Hd' E) as (n & N2 & _ & G & [C1 C2 C3 C4 C5 C6]).
  split.
  { unfold compare_two_accel in E'. apply bind_ok in E' as (t & _ & E'). apply bind_ok in E' as (ya & Ea & E'). rewrite Ea in E'. cbn [bind] in E'.
    apply bind_ok in E' as (X & EX & E'). rewrite EX in E'. cbn [bind] in E'. apply bind_ok in E' as (sm & _ & E'). injection E' as <-. reflexivity. }
  split; [exact HG|]. intros -> HZ.
  assert (ET : cm_tf c = repeat (Some (RtoC 1)) (length (cm_tf c))).
  { apply (list_ext None); [rewrite repeat_length; reflexivity|]. intros k Hk. pose proof (nth_In (cm_tf c) None Hk) as HI. rewrite C5 in HI by (rewrite <- (proj2 C3); exact Hk).
    rewrite C5 by (rewrite <- (proj2 C3); exact Hk). unfold cdivo in *. destruct (czerob_spec (spec (cm_in c) k)) as [Z|Z]; [exfalso; exact (HZ k Hk Z)|]. rewrite (HG _ HI).
    rewrite (nth_indep _ None (Some (RtoC 1))) by (rewrite repeat_length; exact Hk). rewrite nth_repeat. reflexivity. }
  assert (EA : all_some (map amp_of (cm_tf c)) = Some (repeat 1 (length (cm_tf c)))).
  { rewrite ET at 1. clear. induction (length (cm_tf c)) as [|j IH]; [reflexivity|]. cbn [repeat map all_some amp_of option_map]. rewrite IH. cbn [option_map]. rewrite Cmod_1. reflexivity. }
  rewrite EA in C6. destruct C6 as (y & Ey & Es). rewrite Ey. f_equal.
  assert (H3 : (3 <= 15)%nat) by lia. destruct (C35_log_within _ 15 Hanning false None None None (9/10) (9/10) _ H3 (fun Q => match Bool.diff_false_true Q with end) Es) as (_ & _ & K). apply K with (c := 1). rewrite repeat_length. reflexivity.
Qed.

(** The smoothed curve lies between the least and the greatest amplification. *)
Theorem C93_smoothed : forall sh m m2 flag c y lo hi, live sh m -> live sh m2 -> 0 < small_step (sig_at sh (m_accel m)) (sig_at sh (m_accel m2)) ->
  gm_compare sh m (Inst m2) flag true = Ok c -> cm_smooth c = Some y ->
  length y = length (cm_tf c) /\ (forall z, In z (cm_tf c) -> z <> None) /\
  ((forall z, In (Some z) (cm_tf c) -> lo <= Cmod z <= hi) -> forall v, In v y -> lo <= v <= hi).
Proof.
  intros sh m m2 flag c y lo hi L1 L2 Hd E Hy. set (a := sig_at sh (m_accel m)) in *. set (b := sig_at sh (m_accel m2)) in *.
  assert (K : match all_some (map amp_of (cm_tf c)) with Some l => exists y, cm_smooth c = Some y /\ log_smooth l 15 Hanning false None None None true (9 / 10) (9 / 10) = Ok y | None => cm_smooth c = None end).
  { cbn [gm_compare] in E. fold a b in E. destruct flag.
    - destruct (compare_inv a b true c (proj2 L1) (proj2 L2) Hd E) as (n & _ & _ & _ & [_ _ _ _ _ C6]). exact C6.
    - rewrite small_sym in Hd. destruct (compare_inv b a true c (proj2 L2) (proj2 L1) Hd E) as (n & _ & _ & _ & [_ _ _ _ _ C6]). exact C6. }
  destruct (all_some (map amp_of (cm_tf c))) as [l|] eqn:El; [|congruence]. destruct K as (y' & Ey & Es). rewrite Hy in Ey. injection Ey as <-.
  assert (H3 : (3 <= 15)%nat) by lia. destruct (C35_log_within _ 15 Hanning false None None None (9/10) (9/10) _ H3 (fun Q => match Bool.diff_false_true Q with end) Es) as (Ly & W & _).
  assert (HA : forall (tf : list (option C)) l, all_some (map amp_of tf) = Some l -> (forall z, In z tf -> z <> None) /\ forall v, In v l -> exists z, In (Some z) tf /\ v = Cmod z).
  { clear. induction tf as [|[z|] tf IH]; cbn [map all_some amp_of option_map]; intros l E; [injection E as <-; split; [intros z []|intros v []]| |discriminate].
    destruct (all_some (map amp_of tf)) as [r|] eqn:Er; cbn [option_map] in E; [|discriminate]. injection E as <-. destruct (IH r eq_refl) as [A B]. split.
    - intros w [<-|Hw]; [discriminate|apply A, Hw].
    - intros v [<-|Hv]; [exists z; split; [left; reflexivity|reflexivity]|]. destruct (B v Hv) as (w & Hw & ->). exists w. split; [right; exact Hw|reflexivity]. }
  destruct (HA _ _ El) as [A B]. split; [rewrite Ly, (all_some_length _ _ El), map_length; reflexivity|]. split; [exact A|].
  intros HB v Hv. assert (WW : within lo hi y). { apply W. apply Forall_forall. intros u Hu. destruct (B u Hu) as (z & Hz & ->). apply HB, Hz. }
  exact (proj1 (Forall_forall _ _) WW v Hv).
Qed.

(** ** Records already on a grid *)
(** [n] samples [dt] apart, the first at [dt], and at time zero. *)
Definition from_one (dt : R) (v : list R) : signal := combine (grid_times dt (length v)) v.
Definition from_zero (dt : R) (v : list R) : signal := combine (map (fun k => INR k * dt) (seq 0 (length v))) v.
Lemma from_one_parts dt v : times (from_one dt v) = grid_times dt (length v) /\ vals (from_one dt v) = v /\ length (from_one dt v) = length v.
Proof. destruct (combine_parts (grid_times dt (length v)) v) as (A & B & D); [rewrite grid_length; reflexivity|]. rewrite grid_length in D. auto. Qed.
Lemma from_zero_parts dt v : times (from_zero dt v) = map (fun k => INR k * dt) (seq 0 (length v)) /\ vals (from_zero dt v) = v /\ length (from_zero dt v) = length v.
Proof. destruct (combine_parts (map (fun k => INR k * dt) (seq 0 (length v))) v) as (A & B & D); [rewrite map_length, seq_length; reflexivity|]. rewrite map_length, seq_length in D. auto. Qed.

Lemma nth_parts (s : signal) k : nth k s (0, 0) = (nth k (times s) 0, nth k (vals s) 0).
Proof. unfold times, vals. rewrite (nth_map_fst s k 0 0), (nth_map_snd s k 0 0). apply surjective_pairing. Qed.

(** The value at a sample is the sample. *)
Lemma interp_node s k y : incr s -> (k < length s)%nat -> interp1 s (nth k (times s) 0) = Ok y -> y = nth k (vals s) 0.
Proof.
  intros Hi Hk E. apply interp1_on in E; [|exact Hi]. pose proof (pl_at_node s k y Hi Hk) as P. rewrite (nth_parts s k) in P. apply P. exact E.
Qed.

Lemma grid_incr (s : signal) (c0 dt : R) : 0 < dt -> (forall k, (k < length s)%nat -> nth k (times s) 0 = (c0 + INR k) * dt) -> incr s.
Proof.
  intros Hd H k Hk. rewrite !nth_parts. cbn [fst]. rewrite !H by lia. rewrite S_INR. nra.
Qed.
Lemma grid_step (s : signal) (c0 dt : R) : (2 <= length s)%nat -> (forall k, (k < length s)%nat -> nth k (times s) 0 = (c0 + INR k) * dt) -> step_of s = dt.
Proof. intros L H. rewrite step_nth, !H by lia. cbn [INR]. ring. Qed.
Lemma grid_last (s : signal) (c0 dt : R) : (1 <= length s)%nat -> (forall k, (k < length s)%nat -> nth k (times s) 0 = (c0 + INR k) * dt) -> last (times s) 0 = (c0 + INR (length s) - 1) * dt.
Proof.
  intros L H. rewrite last_nth, times_length. rewrite H by lia. rewrite minus_INR by lia. cbn [INR]. ring.
Qed.
Lemma one_times dt v k : (k < length (from_one dt v))%nat -> nth k (times (from_one dt v)) 0 = (1 + INR k) * dt.
Proof. destruct (from_one_parts dt v) as (A & _ & L). rewrite L. intros H. rewrite A, grid_nth by exact H. rewrite S_INR. ring. Qed.
Lemma zero_times dt v k : (k < length (from_zero dt v))%nat -> nth k (times (from_zero dt v)) 0 = (0 + INR k) * dt.
Proof. destruct (from_zero_parts dt v) as (A & _ & L). rewrite L. intros H. rewrite A, nth_map_seq by exact H. ring. Qed.

Lemma signal_parts (s : signal) : s = combine (times s) (vals s).
Proof. induction s as [|[u v] s IH]; [reflexivity|cbn; f_equal; exact IH]. Qed.

(** Two records of one length and step whose first sample is at one step are compared as
    they are. *)
Theorem C93_same_grid : forall sh m m2 smooth c dt v w, live sh m -> live sh m2 -> 0 < dt -> length w = length v ->
  sig_at sh (m_accel m) = from_one dt v -> sig_at sh (m_accel m2) = from_one dt w ->
  gm_compare sh m (Inst m2) true smooth = Ok c -> cm_in c = from_one dt v /\ cm_out c = from_one dt w.
Proof.
  intros sh m m2 smooth c dt v w L1 L2 Hd LL E1 E2 E. cbn [gm_compare] in E. destruct L1 as [_ L1], L2 as [_ L2]. rewrite E1, E2 in *.
  destruct (from_one_parts dt v) as (T1 & V1 & N1). destruct (from_one_parts dt w) as (T2 & V2 & N2). set (a := from_one dt v) in *. set (b := from_one dt w) in *.
  assert (Sa : step_of a = dt) by (apply (grid_step a 1 dt L1); apply one_times). assert (Sb : step_of b = dt) by (apply (grid_step b 1 dt L2); apply one_times).
  assert (Sd : small_step a b = dt) by (unfold small_step; rewrite Sa, Sb; apply min_self).
  assert (Hd' : 0 < small_step a b) by (rewrite Sd; exact Hd).
  destruct (compare_inv a b smooth c L1 L2 Hd' E) as (n & _ & _ & G & [C1 C2 _ _ _ _]). rewrite Sd in C1, C2.
  assert (En : n = length v).
  { assert (ET : late_end a b = INR (length v) * dt).
    { unfold late_end. rewrite (grid_last a 1 dt) by (try lia; apply one_times). rewrite (grid_last b 1 dt) by (try lia; apply one_times). rewrite N1, N2, LL, max_self. ring. }
    pose proof (grid_lt a b n (length v) Hd' G) as I1. rewrite Sd, ET in I1. destruct G as [G1 G2]. rewrite Sd, ET in G1, G2.
    apply Nat.le_antisymm; [apply I1; lra|]. apply INR_le. nra. }
  assert (Q : forall (s : signal) u (y : signal), s = from_one dt u -> length u = n -> (times y = grid_times dt n /\ forall k, (k < n)%nat -> interp1 s (INR (S k) * dt) = Ok (nth k (vals y) 0)) -> y = s).
  { intros s u y Es Lu [Ty Vy]. destruct (from_one_parts dt u) as (Tu & Vu & Nu). rewrite <- Es in *. rewrite (signal_parts y), (signal_parts s), Ty, Tu, Lu, Vu. f_equal.
    apply (list_ext 0); [unfold vals; rewrite map_length, <- times_length, Ty, grid_length; lia|]. intros k Hk. assert (Hk' : (k < n)%nat) by (unfold vals in Hk; rewrite map_length, <- times_length, Ty, grid_length in Hk; exact Hk).
    specialize (Vy k Hk'). assert (HI : incr s) by (apply (grid_incr s 1 dt Hd); rewrite Es; apply one_times).
    assert (Etk : INR (S k) * dt = nth k (times s) 0) by (rewrite Tu, grid_nth by lia; reflexivity). rewrite Etk in Vy. apply interp_node in Vy; [|exact HI|lia]. rewrite Vy, Vu. reflexivity. }
  split; [apply (Q a v)|apply (Q b w)]; try assumption; try reflexivity; try lia.
Qed.

(** Two records of one length and step that start at time zero lose their first sample. *)
Theorem C93_first_sample_dropped : forall sh m m2 smooth c dt v w, live sh m -> live sh m2 -> 0 < dt -> length w = length v ->
  sig_at sh (m_accel m) = from_zero dt v -> sig_at sh (m_accel m2) = from_zero dt w ->
  gm_compare sh m (Inst m2) true smooth = Ok c -> cm_in c = tl (from_zero dt v) /\ cm_out c = tl (from_zero dt w).
Proof.
  intros sh m m2 smooth c dt v w L1 L2 Hd LL E1 E2 E. cbn [gm_compare] in E. destruct L1 as [_ L1], L2 as [_ L2]. rewrite E1, E2 in *.
  destruct (from_zero_parts dt v) as (T1 & V1 & N1). destruct (from_zero_parts dt w) as (T2 & V2 & N2). set (a := from_zero dt v) in *. set (b := from_zero dt w) in *.
  assert (Sa : step_of a = dt) by (apply (grid_step a 0 dt L1); apply zero_times). assert (Sb : step_of b = dt) by (apply (grid_step b 0 dt L2); apply zero_times).
  assert (Sd : small_step a b = dt) by (unfold small_step; rewrite Sa, Sb; apply min_self).
  assert (Hd' : 0 < small_step a b) by (rewrite Sd; exact Hd).
  destruct (compare_inv a b smooth c L1 L2 Hd' E) as (n & _ & _ & G & [C1 C2 _ _ _ _]). rewrite Sd in C1, C2.
  assert (En : n = (length v - 1)%nat).
  { assert (ET : late_end a b = INR (length v - 1) * dt).
    { unfold late_end. rewrite (grid_last a 0 dt) by (try lia; apply zero_times). rewrite (grid_last b 0 dt) by (try lia; apply zero_times). rewrite N1, N2, LL, max_self. rewrite minus_INR by lia. cbn [INR]. ring. }
    pose proof (grid_lt a b n (length v - 1) Hd' G) as I1. rewrite Sd, ET in I1. destruct G as [G1 G2]. rewrite Sd, ET in G1, G2.
    apply Nat.le_antisymm; [apply I1; lra|]. apply INR_le. nra. }
  assert (Q : forall (s : signal) u (y : signal), s = from_zero dt u -> length u = S n -> (times y = grid_times dt n /\ forall k, (k < n)%nat -> interp1 s (INR (S k) * dt) = Ok (nth k (vals y) 0)) -> y = tl s).
  { intros s u y Es Lu [Ty Vy]. destruct (from_zero_parts dt u) as (Tu & Vu & Nu). rewrite <- Es in *.
    assert (Lt : length (tl s) = n) by (destruct s; cbn in *; lia).
    assert (Ly : length y = n) by (rewrite <- times_length, Ty; apply grid_length).
    apply (list_ext (0, 0)); [congruence|]. intros k Hk. rewrite Ly in Hk. assert (Ek : nth k (tl s) (0, 0) = nth (S k) s (0, 0)) by (destruct s; [destruct k; reflexivity|reflexivity]). rewrite Ek.
    assert (HI : incr s) by (apply (grid_incr s 0 dt Hd); rewrite Es; apply zero_times).
    assert (Etk : INR (S k) * dt = nth (S k) (times s) 0) by (rewrite Tu, nth_map_seq by lia; reflexivity).
    rewrite !nth_parts. rewrite Ty, grid_nth by exact Hk. rewrite <- Etk. f_equal. specialize (Vy k Hk). rewrite Etk in Vy. apply interp_node in Vy; [|exact HI|lia]. exact Vy. }
  split; [apply (Q a v)|apply (Q b w)]; try assumption; try reflexivity; try lia.
Qed.

(** The record that ends first is held at its last value up to the end of the other one. *)
Theorem C93_shorter_record_held : forall sh m m2 flag smooth c k, live sh m -> live sh m2 ->
  let a := sig_at sh (m_accel m) in let b := sig_at sh (m_accel m2) in
  0 < small_step a b -> incr a -> gm_compare sh m (Inst m2) flag smooth = Ok c ->
  let y := if flag then cm_in c else cm_out c in
  (k < length y)%nat -> last (times a) 0 <= nth k (times y) 0 -> nth k (vals y) 0 = last (vals a) 0.
Proof.
  intros sh m m2 flag smooth c k L1 L2 a b Hd Ia E y Hk HT.
  assert (K : exists n, times y = grid_times (small_step a b) n /\ forall k, (k < n)%nat -> interp1 a (INR (S k) * small_step a b) = Ok (nth k (vals y) 0)).
  { cbn [gm_compare] in E. fold a b in E. unfold y. destruct flag.
    - destruct (compare_inv a b smooth c (proj2 L1) (proj2 L2) Hd E) as (n & _ & _ & _ & [C1 _ _ _ _ _]). eauto.
    - rewrite small_sym in Hd. destruct (compare_inv b a smooth c (proj2 L2) (proj2 L1) Hd E) as (n & _ & _ & _ & [_ C2 _ _ _ _]). rewrite small_sym in C2. eauto. }
  destruct K as (n & Ty & Vy). assert (Hn : (k < n)%nat) by (rewrite <- times_length, Ty, grid_length in Hk; exact Hk). specialize (Vy k Hn). rewrite Ty, grid_nth in HT by exact Hn.
  set (x := INR (S k) * small_step a b) in *. apply interp1_on in Vy; [|exact Ia]. destruct L1 as [_ L1]. fold a in L1.
  rewrite !last_nth. rewrite last_nth in HT. unfold vals at 2. rewrite map_length. rewrite times_length in HT.
  inversion Vy as [y0 x0 rest E0 H0 Ey|j Hj H0 Ey|j t Hj Ht Ex Ey].
  - exfalso. pose proof (incr_lt a 0 (length a - 1) Ia ltac:(lia) ltac:(lia)) as Q. rewrite !nth_parts in Q. cbn [fst] in Q. assert (X0 : nth 0 (times a) 0 = x0) by (rewrite E0; reflexivity). rewrite X0 in Q. lra.
  - replace (length a - 1)%nat with j by lia. rewrite nth_parts. reflexivity.
  - pose proof (Ia j Hj) as HS. rewrite !nth_parts in *. cbn [fst snd] in *.
    destruct (Nat.eq_dec (S j) (length a - 1)) as [Ej|Nj].
    + rewrite <- Ej in *. assert (t = 1) by nra. subst t. ring.
    + pose proof (incr_lt a (S j) (length a - 1) Ia ltac:(lia) ltac:(lia)) as Q. rewrite !nth_parts in Q. cbn [fst] in Q. nra.
Qed.

(** Two motions of one heap: the samples of [rec4], and twice as large ones. *)
Example C93_instance : exists sh m m2 c, live sh m /\ live sh m2 /\ 0 < small_step (sig_at sh (m_accel m)) (sig_at sh (m_accel m2)) /\
  incr (sig_at sh (m_accel m)) /\ sig_at sh (m_accel m2) = times_by 2 (sig_at sh (m_accel m)) /\
  gm_compare sh m (Inst m2) true false = Ok c.
Proof.
  set (v := [1; 0; -1; 0]). set (a := from_zero 1 v). set (b := times_by 2 a).
  set (m0 := fun k : nat => mkmotion 1 4 [] k k k 0 0 0 (mkarias [] [] 0 0) (0, 0, 0)).
  exists [a; b], (m0 0%nat), (m0 1%nat).
  assert (La : live [a; b] (m0 0%nat)) by (split; cbn; lia). assert (Lb : live [a; b] (m0 1%nat)) by (split; cbn; lia).
  assert (Sd : small_step a b = 1) by (unfold b; rewrite small_scaled; unfold step_of; cbn; lra).
  destruct (proj2 (proj1 (C93_accepts_iff [a; b] (m0 0%nat) (m0 1%nat) true false La Lb ltac:(cbn [m0 m_accel sig_at nth]; rewrite Sd; lra)))) as [c E].
  - cbn [m0 m_accel sig_at nth]. rewrite Sd. split; [|discriminate]. unfold late_end, b. rewrite times_by_times, max_self. cbn. lra.
  - exists c. split; [exact La|]. split; [exact Lb|]. cbn [m0 m_accel sig_at nth]. split; [rewrite Sd; lra|]. split; [|split; [reflexivity|exact E]].
    apply (grid_incr a 0 1); [lra|]. apply zero_times.
Qed.
