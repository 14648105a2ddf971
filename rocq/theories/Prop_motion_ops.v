(** Theorems about operations on Ground_Motion: scaling (C17), truncation (C18),
    units (C19), saving (C20) and about peak picking (C21). *)
From Coq Require Import Reals List Bool ZArith Lia Lra.
From Verif Require Import Base M_generic P_generic M_profile P_profile M_vs_profile P_vs_profile M_motion P_motion
  Prop_motion.
Import ListNotations.
Open Scope R_scope.

(** A motion whose acceleration array is in the heap. *)
Definition live (h : sheap) (m : motion) : Prop :=
  (m_accel m < length h)%nat /\ (2 <= length (sig_at h (m_accel m)))%nat.

Definition times_factor (f : R) (s : signal) : signal := map (fun tv => (fst tv, snd tv * f)) s.
Lemma times_factor_times f s : times (times_factor f s) = times s.
Proof. unfold times_factor, times. rewrite map_map. reflexivity. Qed.
Lemma times_factor_vals f s : vals (times_factor f s) = map (fun x => x * f) (vals s).
Proof. unfold times_factor, vals. rewrite !map_map. reflexivity. Qed.
Lemma times_factor_length f s : length (times_factor f s) = length s.
Proof. apply map_length. Qed.

Lemma conv_m s : conv U_m s = s.
Proof. unfold conv. rewrite <- (map_id s) at 2. apply map_ext. intros [? ?]; reflexivity. Qed.

Lemma max_abs_scale v f p : v <> [] -> max_abs v = Ok p -> max_abs (map (fun x => x * f) v) = Ok (Rabs f * p).
Proof.
  intros Hv E. destruct (max_abs_ok v Hv) as (p1 & E1 & _ & H1 & (x & Hx & Hx2)). rewrite E in E1. injection E1 as <-.
  assert (Hv' : map (fun x => x * f) v <> []) by (destruct v; [congruence|discriminate]).
  destruct (max_abs_ok _ Hv') as (p2 & E2 & _ & H2 & H3). rewrite E2. f_equal.
  eapply max_abs_unique; [exact H2|exact H3| |].
  - intros y Hy. apply in_map_iff in Hy as (z & <- & Hz). rewrite Rabs_mult, Rmult_comm.
    apply Rmult_le_compat_l; [apply Rabs_pos|]. apply H1. exact Hz.
  - exists (x * f). split; [apply in_map_iff; eauto|]. rewrite Rabs_mult, Hx2. lra.
Qed.

(** ** C17 scaling *)
Theorem C17_scale_by_factor : forall h m f, live h m ->
  let s := sig_at h (m_accel m) in
  exists h' m', scale_motion h m f None = (h', Ok m') /\
    sig_at h' (m_accel m') = times_factor f s /\
    (forall l, (l < length h)%nat -> sig_at h' l = sig_at h l) /\ m_accel m' <> m_accel m /\
    (forall p, max_abs (vals s) = Ok p -> m_pga m' = Rabs f * p) /\
    (forall v u, num_int s = Ok (v, u) ->
       forall k, nth k (vals (sig_at h' (m_veloc m'))) 0 = f * nth k (vals v) 0 /\
                 nth k (vals (sig_at h' (m_displ m'))) 0 = f * nth k (vals u) 0) /\
    (forall r, calc_Arias s = Ok r -> ia_peak (m_arias m') = f * f * ia_peak r) /\
    m_dt m' = step_of s /\ m_npts m' = length s.
Proof.
  intros h m f [Hl Hn] s. unfold scale_motion. fold s. fold (times_factor f s).
  set (h1 := h ++ [times_factor f s]).
  assert (Hl1 : (length h < length h1)%nat) by (unfold h1; rewrite app_length; cbn; lia).
  assert (Es : sig_at h1 (length h) = times_factor f s)
    by (unfold h1, sig_at; rewrite app_nth2, Nat.sub_diag by lia; reflexivity).
  destruct (proj2 (proj1 (C71_constructor_accepts_iff h1 (length h) U_m T_accel Hl1))) as (h' & m' & E).
  { rewrite Es, times_factor_length. split; [exact Hn|]. split; [discriminate|split; [discriminate|reflexivity]]. }
  exists h', m'. split; [exact E|].
  destruct (C71_constructed_motion _ _ _ _ _ _ Hl1 E) as
    (a & v & w & Ea & Ev & Ew & (Had & Hi) & Ta & _ & _ & Eloc & Hold & Hac & Edt & Enp & P1 & _ & _ & EA & _).
  rewrite Es, conv_m in *.
  split; [rewrite Ea; exact Had|]. split; [|split; [lia|split; [|split; [|split; [|split]]]]].
  - intros l Hll. rewrite Hold by lia. unfold h1, sig_at. rewrite app_nth1 by auto. reflexivity.
  - intros p Ep. rewrite Had in P1. rewrite times_factor_vals in P1.
    rewrite (max_abs_scale _ f p) in P1; [injection P1 as <-; reflexivity| |exact Ep].
    apply vals_ne. exact Hn.
  - intros v0 u0 E0. rewrite Ev, Ew.
    assert (LC : lincomb f 0 s s (times_factor f s)).
    { unfold lincomb. rewrite times_factor_times, times_factor_length. repeat split; auto.
      intros k Hk. rewrite times_factor_vals, map_mul_nth. lra. }
    destruct (C15_integration_linear f 0 s s (times_factor f s) v0 u0 v0 u0 v w LC E0 E0 Hi) as [(_ & _ & L1 & _ & H1) (_ & _ & L2 & _ & H2)].
    intros k. split.
    + destruct (Nat.lt_ge_cases k (length v)) as [Hk|Hk]; [rewrite H1 by auto; lra|].
      rewrite !nth_overflow by (rewrite vals_length; lia). lra.
    + destruct (Nat.lt_ge_cases k (length w)) as [Hk|Hk]; [rewrite H2 by auto; lra|].
      rewrite !nth_overflow by (rewrite vals_length; lia). lra.
  - intros r Er. rewrite Had in EA.
    destruct (C16_scales_quadratically s (times_factor f s) f r (m_arias m')) as (_ & Hp & _); auto using times_factor_times, times_factor_vals.
  - rewrite Edt. apply step_same. rewrite times_factor_times. reflexivity.
  - rewrite Enp. apply times_factor_length.
Qed.

(** A target overrides the factor; it is reached when the stored PGA is that of
    the current samples and not 0. *)
Theorem C17_scale_to_target : forall h m f t p, live h m ->
  max_abs (vals (sig_at h (m_accel m))) = Ok p -> m_pga m <> 0 ->
  exists h' m', scale_motion h m f (Some t) = (h', Ok m') /\
    sig_at h' (m_accel m') = times_factor (t / pga_in_g m) (sig_at h (m_accel m)) /\
    (forall l, (l < length h)%nat -> sig_at h' l = sig_at h l) /\
    pga_in_g m' = Rabs t * (p / Rabs (m_pga m)) /\
    (m_pga m = p -> pga_in_g m' = Rabs t).
Proof.
  intros h m f t p Hlive Ep Hnz.
  destruct (C17_scale_by_factor h m (t / pga_in_g m) Hlive) as (h' & m' & E & Ea & Hold & _ & Hp & _).
  exists h', m'. split; [exact E|]. split; [exact Ea|]. split; [exact Hold|].
  specialize (Hp p Ep).
  assert (Hg : pga_in_g m' = Rabs t * (p / Rabs (m_pga m))).
  { unfold pga_in_g at 1. rewrite Hp. unfold pga_in_g. pose proof (Rabs_no_R0 _ Hnz).
    replace (t / (m_pga m / (981 / 100))) with ((t * (981 / 100)) * / m_pga m) by (field; auto).
    rewrite !Rabs_mult, Rabs_inv. rewrite (Rabs_pos_eq (981 / 100)) by lra. field. auto. }
  split; [exact Hg|]. intros <-. rewrite Hg.
  assert (0 <= m_pga m).
  { destruct (max_abs_ok (vals (sig_at h (m_accel m)))) as (q & Eq & Hq & _); [apply vals_ne; apply Hlive|].
    rewrite Ep in Eq. injection Eq as ->. exact Hq. }
  rewrite (Rabs_pos_eq (m_pga m)) by auto. field. auto.
Qed.

(** A motion built from a velocity history: scaling it re-derives the velocity by
    integration, so the initial velocity is lost. *)
Theorem C17_scaled_velocity_motion : forall h loc u h1 m f h2 m', (loc < length h)%nat ->
  evenly_spaced (sig_at h loc) -> step_of (sig_at h loc) <> 0 ->
  gm_init h loc u T_veloc = (h1, Ok m) -> scale_motion h1 m f None = (h2, Ok m') ->
  let v := vals (sig_at h1 (m_veloc m)) in
  forall k, (k < length (sig_at h loc))%nat -> nth k (vals (sig_at h2 (m_veloc m'))) 0 = f * (nth k v 0 - nth 0 v 0).
Proof.
  intros h loc u h1 m f h2 m' Hl He Hd E1 E2 v k Hk.
  destruct (proj1 (proj1 (C71_constructor_accepts_iff h loc u T_veloc Hl))) as [Hn Ha]; [eauto|].
  destruct (C71_constructed_motion _ _ _ _ _ _ Hl E1) as
    (a & v0 & w & Ea & Ev & Ew & (HD & Hv0 & w0 & _) & Ta & _ & _ & Eloc & _).
  assert (La : length a = length (sig_at h loc)) by (rewrite <- times_length, Ta, times_length; reflexivity).
  assert (Hlv : live h1 m).
  { split; [|rewrite Ea; lia]. destruct (Nat.lt_ge_cases (m_accel m) (length h1)) as [|Hge]; [auto|].
    unfold sig_at in Ea at 1. rewrite nth_overflow in Ea by auto. subst a. cbn in La. lia. }
  destruct (C17_scale_by_factor h1 m f Hlv) as (h2' & m2 & E2' & _ & _ & _ & _ & HV & _).
  rewrite E2 in E2'. injection E2' as <- <-. rewrite Ea in HV.
  destruct (num_int_spec a ltac:(lia)) as (iv & iu & Ei & _). specialize (HV iv iu Ei k). destruct HV as [HV _].
  rewrite HV. subst v. rewrite Ev, Hv0. set (d := conv u (sig_at h loc)) in *.
  assert (Ld : length d = length (sig_at h loc)) by apply conv_length.
  rewrite (int_after_diff d a iv iu); auto; try lia.
  - apply (evenly_same (sig_at h loc)); auto. symmetry. apply conv_times.
  - unfold d. rewrite conv_step. auto.
Qed.

(** Finding: hence the peak velocity of such a motion need not scale. *)
Theorem C17_peak_velocity_scales_refuted : exists h loc h1 m f h2 m',
  (loc < length h)%nat /\ evenly_spaced (sig_at h loc) /\ 0 < step_of (sig_at h loc) /\ 0 < f /\
  gm_init h loc U_ms T_veloc = (h1, Ok m) /\ scale_motion h1 m f None = (h2, Ok m') /\
  m_pgv m = 3 /\ m_pgv m' = 0.
Proof.
  set (h := [[(0, 3); (1, 3)]] : sheap).
  assert (Hl : (0 < length h)%nat) by (cbn; lia).
  destruct (proj2 (proj1 (C71_constructor_accepts_iff h 0 U_ms T_veloc Hl))) as (h1 & m & E).
  { split; [cbn; lia|]. split; [discriminate|split; [discriminate|]]. intros [X|X]; discriminate. }
  destruct (C71_constructed_motion _ _ _ _ _ _ Hl E) as
    (a & v & w & Ea & Ev & _ & (HD & Hv & _) & Ta & _ & _ & _ & _ & _ & _ & _ & _ & Pv & _).
  assert (He : evenly_spaced (sig_at h 0)) by (intros [|k] Hk; [reflexivity|cbn in Hk; lia]).
  assert (Hd : 0 < step_of (sig_at h 0)) by (unfold step_of; cbn; lra).
  assert (La : length a = 2%nat) by (rewrite <- times_length, Ta, times_length; reflexivity).
  assert (Hlv : live h1 m).
  { split; [|rewrite Ea; lia]. destruct (Nat.lt_ge_cases (m_accel m) (length h1)) as [|Hge]; [auto|].
    unfold sig_at in Ea. rewrite nth_overflow in Ea by auto. subst a. discriminate. }
  destruct (C17_scale_by_factor h1 m 2 Hlv) as (h2 & m' & E2 & Ea2 & _).
  exists h, 0%nat, h1, m, 2, h2, m'. do 3 (split; [assumption|]). split; [lra|]. split; [exact E|]. split; [exact E2|]. split.
  - rewrite Hv in Pv. cbn in Pv. injection Pv as <-. unfold Rmax. repeat (destruct (Rle_dec _ _)); rewrite Rabs_pos_eq; lra.
  - assert (HV := fun k => C17_scaled_velocity_motion h 0 U_ms h1 m 2 h2 m' Hl He ltac:(lra) E E2 k).
    cbv zeta in HV. rewrite Ev, Hv in HV.
    unfold scale_motion in E2. set (h3 := h1 ++ _) in E2.
    assert (Hl3 : (length h1 < length h3)%nat) by (unfold h3; rewrite app_length; cbn; lia).
    destruct (C71_constructed_motion _ _ _ _ _ _ Hl3 E2) as
      (a3 & v3 & w3 & _ & Ev3 & _ & _ & _ & Tv3 & _ & _ & _ & _ & _ & _ & _ & Pv3 & _).
    assert (L3 : length v3 = 2%nat).
    { rewrite <- times_length, Tv3, times_length. unfold h3, sig_at. rewrite app_nth2, Nat.sub_diag by lia.
      cbn [nth]. rewrite map_length. fold (sig_at h1 (m_accel m)). rewrite Ea. exact La. }
    rewrite Ev3 in HV. pose proof (HV 0%nat ltac:(cbn; lia)) as H0. pose proof (HV 1%nat ltac:(cbn; lia)) as H1.
    destruct v3 as [|[t0 x0] [|[t1 x1] [|? ?]]]; try discriminate L3. cbn in H0, H1.
    assert (X0 : x0 = 0) by lra. assert (X1 : x1 = 0) by lra. rewrite X0, X1 in Pv3.
    change (max_abs [0; 0] = Ok (m_pgv m')) in Pv3.
    destruct (max_abs_ok [0; 0]) as (q & Eq & _ & _ & (x & Hx & Hq)); [discriminate|].
    rewrite Pv3 in Eq. injection Eq as ->. rewrite Hq.
    destruct Hx as [<-|[<-|[]]]; apply Rabs_R0.
Qed.

Example C17_instance : exists h' m h2 m2, gm_init gal_demo 0 U_gal T_accel = (h', Ok m) /\ live h' m /\
  scale_motion h' m 1 (Some (1/2)) = (h2, Ok m2) /\ pga_in_g m2 = 1/2.
Proof.
  destruct C71_instance as (h' & m & E & E0 & Ep).
  assert (Hl : (0 < length gal_demo)%nat) by (cbn; lia).
  destruct (C71_constructed_motion _ _ _ _ _ _ Hl E) as
    (a & v & w & Ea & _ & _ & (Ha & _) & _ & _ & _ & Eloc & _ & Hac & _ & _ & P1 & _).
  assert (Hlv : live h' m).
  { split; [|rewrite Ea, Ha; cbn; lia]. rewrite Hac. destruct h'; [discriminate Eloc|cbn; lia]. }
  exists h', m. destruct (C17_scale_to_target h' m 1 (1/2) (m_pga m) Hlv) as (h2 & m2 & E2 & _ & _ & _ & H).
  - rewrite Ea. exact P1.
  - lra.
  - exists h2, m2. split; [exact E|]. split; [exact Hlv|]. split; [exact E2|]. rewrite H by reflexivity. apply Rabs_pos_eq; lra.
Qed.

(** ** C18 truncation *)

(** Sample [k] (of a record sampled at [dt]) belongs to the window. *)
Definition in_window (dt lo hi : R) (k : nat) : Prop := lo < (INR k + 1) * dt <= hi.

Definition start_of (lo dt : R) : Z := if Z.ltb (py_int (lo / dt)) 0 then 0%Z else py_int (lo / dt).
Definition stop_of (hi dt : R) (n : nat) : Z :=
  if Z.ltb (Z.of_nat n) (py_int (hi / dt)) then Z.of_nat n else py_int (hi / dt).

Lemma start_iff lo dt k : 0 < dt -> ((start_of lo dt <= Z.of_nat k)%Z <-> lo < (INR k + 1) * dt).
Proof.
  intros Hd.
  assert (Hq : lo < (INR k + 1) * dt <-> lo / dt < INR k + 1).
  { split; intros H.
    - apply Rmult_lt_reg_r with dt; [auto|]. unfold Rdiv. rewrite Rmult_assoc, Rinv_l by lra. lra.
    - apply Rmult_lt_compat_r with (r := dt) in H; [|auto]. unfold Rdiv in H. rewrite Rmult_assoc, Rinv_l in H by lra. lra. }
  rewrite Hq. set (x := lo / dt). unfold start_of. fold x. pose proof (pos_INR k). rewrite INR_IZR_INZ in *.
  destruct (Rle_dec 0 x) as [Hx|Hx].
  - destruct (py_int_nonneg x Hx) as [H0 H1]. destruct (Z.ltb_spec (py_int x) 0); [lia|]. split; intros HH.
    + apply IZR_le in HH. lra.
    + apply Z.lt_succ_r. apply lt_IZR. rewrite succ_IZR. lra.
  - destruct (py_int_neg x ltac:(lra)) as [H0 H1]. split; intros HH; [lra|].
    destruct (Z.ltb_spec (py_int x) 0); lia.
Qed.

Lemma start_nonneg lo dt : (0 <= start_of lo dt)%Z.
Proof. unfold start_of. destruct (Z.ltb_spec (py_int (lo / dt)) 0); lia. Qed.

Lemma stop_iff hi dt n k : 0 < dt -> (k < n)%nat -> ((Z.of_nat k < stop_of hi dt n)%Z <-> (INR k + 1) * dt <= hi).
Proof.
  intros Hd Hk.
  assert (Hq : (INR k + 1) * dt <= hi <-> INR k + 1 <= hi / dt).
  { split; intros H.
    - apply Rmult_le_reg_r with dt; [auto|]. unfold Rdiv. rewrite (Rmult_assoc hi), Rinv_l by lra. lra.
    - apply Rmult_le_compat_r with (r := dt) in H; [|lra]. unfold Rdiv in H. rewrite (Rmult_assoc hi), Rinv_l in H by lra. lra. }
  rewrite Hq. set (x := hi / dt). unfold stop_of. fold x. pose proof (pos_INR k). rewrite INR_IZR_INZ in *.
  assert (Hi : (Z.of_nat k < py_int x)%Z <-> IZR (Z.of_nat k) + 1 <= x).
  { destruct (Rle_dec 0 x) as [Hx|Hx].
    - destruct (py_int_nonneg x Hx) as [H0 H1]. split; intros HH.
      + apply Zlt_le_succ, IZR_le in HH. rewrite succ_IZR in HH. lra.
      + apply lt_IZR. lra.
    - destruct (py_int_neg x ltac:(lra)) as [H0 H1]. split; intros HH; [lia|lra]. }
  destruct (Z.ltb_spec (Z.of_nat n) (py_int x)); [|exact Hi].
  rewrite <- Hi. lia.
Qed.

Lemma stop_le hi dt n : (stop_of hi dt n <= Z.of_nat n)%Z.
Proof. unfold stop_of. destruct (Z.ltb_spec (Z.of_nat n) (py_int (hi / dt))); lia. Qed.
Lemma stop_nonneg hi dt n : 0 < dt -> (0 <= stop_of hi dt n)%Z <-> - dt < hi.
Proof.
  intros Hd. assert (Hq : - dt < hi <-> -1 < hi / dt).
  { split; intros H.
    - apply Rmult_lt_reg_r with dt; [auto|]. unfold Rdiv. rewrite (Rmult_assoc hi), Rinv_l by lra. lra.
    - apply Rmult_lt_compat_r with (r := dt) in H; [|lra]. unfold Rdiv in H. rewrite (Rmult_assoc hi), Rinv_l in H by lra. lra. }
  rewrite Hq. set (x := hi / dt). unfold stop_of. fold x.
  assert (Hi : (0 <= py_int x)%Z <-> -1 < x).
  { destruct (Rle_dec 0 x) as [Hx|Hx].
    - destruct (py_int_nonneg x Hx). split; intros; [lra|lia].
    - destruct (py_int_neg x ltac:(lra)) as [H0 H1]. split; intros HH.
      + assert (py_int x = 0%Z) by lia. rewrite H in H1. lra.
      + assert (-1 < py_int x)%Z by (apply lt_IZR; lra). lia. }
  destruct (Z.ltb_spec (Z.of_nat n) (py_int x)); [|exact Hi]. rewrite <- Hi. lia.
Qed.

Lemma gm_truncate_times h m lim1 lim2 e1 e2 : 0 <= e1 -> 0 <= e2 -> lim1 < lim2 ->
  gm_truncate h m lim1 lim2 false e1 e2 =
  (let s := sig_at h (m_accel m) in
   let n1 := start_of (lim1 - e1) (m_dt m) in
   let n2 := stop_of (lim2 + e2) (m_dt m) (m_npts m) in
   if negb (Nat.eqb (length (pyslice 0 (n2 - n1) (times s))) (length (pyslice n1 n2 (vals s)))) then (h, Err ValueError)
   else let '(h', r) := gm_init (h ++ [combine (pyslice 0 (n2 - n1) (times s)) (pyslice n1 n2 (vals s))]) (length h) U_m T_accel in
        (h', let! m' := r in Ok (m', (n1, n2)))).
Proof.
  intros H1 H2 H3. unfold gm_truncate.
  rewrite (proj2 (Rltb_false e1 0)), (proj2 (Rltb_false e2 0)), (proj2 (Rleb_false lim2 lim1)) by lra.
  cbn [orb]. reflexivity.
Qed.

Lemma nth_firstn_lt (l : list R) n k : (k < n)%nat -> nth k (firstn n l) 0 = nth k l 0.
Proof. revert n k; induction l as [|x l IH]; intros [|n] [|k] H; cbn; try lia; auto. apply IH. lia. Qed.

Lemma pyslice_length {A} (l : list A) a b : (0 <= a)%Z -> (0 <= b)%Z ->
  length (pyslice a b l) = (Nat.min (Z.to_nat b) (length l) - Nat.min (Z.to_nat a) (length l))%nat.
Proof.
  intros Ha Hb. rewrite pyslice_pos by auto. rewrite firstn_length, skipn_length. lia.
Qed.

Lemma pyslice_nth (l : list R) a b k : (0 <= a <= b)%Z -> (b <= Z.of_nat (length l))%Z -> (k < Z.to_nat (b - a))%nat ->
  nth k (pyslice a b l) 0 = nth (Z.to_nat a + k) l 0.
Proof.
  intros Ha Hb Hk. rewrite pyslice_pos by lia.
  rewrite !Nat.min_l by lia. rewrite nth_firstn_lt by lia.
  rewrite <- (firstn_skipn (Z.to_nat a) l) at 2. rewrite app_nth2 by (rewrite firstn_length; lia).
  f_equal. rewrite firstn_length. lia.
Qed.

(** Rewrites a construction up to the representation of its heap argument. *)
Ltac rew_init E :=
  match type of E with ?X = _ => match goal with |- context [gm_init ?a ?b ?c ?d] =>
    change (gm_init a b c d) with X; rewrite E end end.

(** The part of [truncate] after the limits are known. *)
Definition trunc_core (h : sheap) (m : motion) (lo hi : R) : sheap * res (motion * (Z * Z)) :=
  let s := sig_at h (m_accel m) in
  let n1 := start_of lo (m_dt m) in
  let n2 := stop_of hi (m_dt m) (m_npts m) in
  if negb (Nat.eqb (length (pyslice 0 (n2 - n1) (times s))) (length (pyslice n1 n2 (vals s)))) then (h, Err ValueError)
  else let '(h', r) := gm_init (h ++ [combine (pyslice 0 (n2 - n1) (times s)) (pyslice n1 n2 (vals s))]) (length h) U_m T_accel in
       (h', let! m' := r in Ok (m', (n1, n2))).

(** Expected outcome: the motion made of exactly the samples in the window (values
    from the window, times from the start of the record), or an exception when
    fewer than two samples lie in the window.  Old arrays are untouched. *)
Definition window_result (h : sheap) (s : signal) (dt lo hi : R) (out : sheap * res (motion * (Z * Z))) : Prop :=
  (forall l, (l < length h)%nat -> sig_at (fst out) l = sig_at h l) /\
  ((exists k, (S k < length s)%nat /\ in_window dt lo hi k /\ in_window dt lo hi (S k)) ->
    exists m' n1 n2, snd out = Ok (m', (Z.of_nat n1, Z.of_nat n2)) /\ (n2 <= length s)%nat /\
      (forall k, (k < length s)%nat -> (in_window dt lo hi k <-> (n1 <= k < n2)%nat)) /\
      let a := sig_at (fst out) (m_accel m') in
      length a = (n2 - n1)%nat /\
      (forall k, (k < n2 - n1)%nat -> nth k (times a) 0 = nth k (times s) 0 /\ nth k (vals a) 0 = nth (n1 + k) (vals s) 0)) /\
  (~ (exists k, (S k < length s)%nat /\ in_window dt lo hi k /\ in_window dt lo hi (S k)) ->
    exists e, snd out = Err e).

Lemma combine_times (a b : list R) : length a = length b -> times (combine a b) = a.
Proof. unfold times. revert b; induction a as [|x a IH]; intros [|y b] H; cbn in *; try discriminate; f_equal. apply IH. lia. Qed.
Lemma combine_vals (a b : list R) : length a = length b -> vals (combine a b) = b.
Proof. unfold vals. revert b; induction a as [|x a IH]; intros [|y b] H; cbn in *; try discriminate; f_equal. apply IH. lia. Qed.

(** Construction of the truncated record from a fresh array. *)
Lemma fresh_accel h (s : signal) : (2 <= length s)%nat -> exists h' m',
  gm_init (h ++ [s]) (length h) U_m T_accel = (h', Ok m') /\ sig_at h' (m_accel m') = s /\
  forall l, (l < length h)%nat -> sig_at h' l = sig_at h l.
Proof.
  intros Hn. set (h1 := h ++ [s]).
  assert (Hl1 : (length h < length h1)%nat) by (unfold h1; rewrite app_length; cbn; lia).
  assert (Es : sig_at h1 (length h) = s)
    by (unfold h1, sig_at; rewrite app_nth2, Nat.sub_diag by lia; reflexivity).
  destruct (proj2 (proj1 (C71_constructor_accepts_iff h1 (length h) U_m T_accel Hl1))) as (h' & m' & E).
  { rewrite Es. split; [exact Hn|]. split; [discriminate|split; [discriminate|reflexivity]]. }
  exists h', m'. split; [exact E|].
  destruct (C71_constructed_motion _ _ _ _ _ _ Hl1 E) as
    (a & v & w & Ea & _ & _ & (Had & _) & _ & _ & _ & _ & Hold & _).
  rewrite Es, conv_m in *. split; [congruence|].
  intros l Hll. rewrite Hold by lia. unfold h1, sig_at. rewrite app_nth1 by auto. reflexivity.
Qed.

Lemma fresh_accel_err h (s : signal) : (length s < 2)%nat -> exists e,
  gm_init (h ++ [s]) (length h) U_m T_accel = (h ++ [s], Err e).
Proof.
  intros Hn. set (h1 := h ++ [s]).
  assert (Hl1 : (length h < length h1)%nat) by (unfold h1; rewrite app_length; cbn; lia).
  assert (Es : sig_at h1 (length h) = s)
    by (unfold h1, sig_at; rewrite app_nth2, Nat.sub_diag by lia; reflexivity).
  pose proof (C71_constructor_accepts_iff h1 (length h) U_m T_accel Hl1) as [Hi He].
  destruct (gm_init h1 (length h) U_m T_accel) as [h' [m'|e]] eqn:E.
  - exfalso. destruct (proj1 Hi) as [Hc _]; [eauto|]. rewrite Es in Hc. lia.
  - destruct (He h' e eq_refl) as [-> _]. eauto.
Qed.

Lemma trunc_core_spec h m lo hi : live h m -> m_npts m = length (sig_at h (m_accel m)) -> 0 < m_dt m -> - m_dt m < hi ->
  window_result h (sig_at h (m_accel m)) (m_dt m) lo hi (trunc_core h m lo hi).
Proof.
  intros [Hl Hn] Hnp Hd Hhi. set (s := sig_at h (m_accel m)) in *. set (dt := m_dt m) in *.
  unfold trunc_core. cbv zeta. fold s. fold dt. rewrite Hnp.
  pose proof (start_nonneg lo dt) as H1. pose proof (proj2 (stop_nonneg hi dt (length s) Hd) Hhi) as H2.
  pose proof (stop_le hi dt (length s)) as H3.
  pose proof (fun k => start_iff lo dt k Hd) as Hs. pose proof (fun k => stop_iff hi dt (length s) k Hd) as Ht.
  set (n1 := start_of lo dt) in *. set (n2 := stop_of hi dt (length s)) in *.
  assert (Hw : forall k, (k < length s)%nat -> (in_window dt lo hi k <-> (n1 <= Z.of_nat k < n2)%Z)).
  { intros k Hk. unfold in_window. rewrite <- (Hs k), <- (Ht k Hk). tauto. }
  set (T := pyslice 0 (n2 - n1) (times s)). set (A := pyslice n1 n2 (vals s)).
  destruct (Z_le_gt_dec (n1 + 2) n2) as [Hc|Hc].
  - assert (LT : length T = Z.to_nat (n2 - n1)).
    { unfold T. rewrite pyslice_length by lia. rewrite times_length. lia. }
    assert (LA : length A = Z.to_nat (n2 - n1)).
    { unfold A. rewrite pyslice_length by lia. rewrite vals_length. lia. }
    rewrite LT, LA, Nat.eqb_refl. cbn [negb].
    destruct (fresh_accel h (combine T A)) as (h' & m' & E & Ea & Hold).
    { rewrite combine_length. lia. }
    rew_init E. cbn [bind]. split; [exact Hold|]. split.
    + intros _. exists m', (Z.to_nat n1), (Z.to_nat n2). cbn [snd fst].
      rewrite !Z2Nat.id by lia. split; [reflexivity|]. split; [lia|]. split.
      * intros k Hk. rewrite Hw by auto. lia.
      * rewrite Ea, combine_times, combine_vals by lia. split; [rewrite combine_length; lia|].
        intros k Hk. unfold T, A. split.
        -- rewrite pyslice_nth; rewrite ?times_length; try lia. cbn. reflexivity.
        -- rewrite pyslice_nth; rewrite ?vals_length; try lia. reflexivity.
    + intros Hno. exfalso. apply Hno. exists (Z.to_nat n1). split; [lia|]. rewrite !Hw by lia. lia.
  - assert (Herr : exists e, snd (if negb (Nat.eqb (length T) (length A)) then (h, Err ValueError)
       else let '(h', r) := gm_init (h ++ [combine T A]) (length h) U_m T_accel in
            (h', let! m' := r in Ok (m', (n1, n2)))) = Err e /\
       forall l, (l < length h)%nat -> sig_at (fst (if negb (Nat.eqb (length T) (length A)) then (h, Err ValueError)
       else let '(h', r) := gm_init (h ++ [combine T A]) (length h) U_m T_accel in
            (h', let! m' := r in Ok (m', (n1, n2))))) l = sig_at h l).
    { destruct (Nat.eqb_spec (length T) (length A)) as [EL|EL]; cbn [negb]; [|exists ValueError; auto].
      destruct (fresh_accel_err h (combine T A)) as (e & E).
      { rewrite combine_length. unfold A. rewrite pyslice_length by lia. lia. }
      repeat rew_init E. cbn. exists e. split; [reflexivity|]. intros l Hll. unfold sig_at. rewrite app_nth1 by auto. reflexivity. }
    destruct Herr as (e & He & Hold). split; [exact Hold|]. split; [|eauto].
    intros (k & Hk & W1 & W2). exfalso. apply Hw in W1; [|lia]. apply Hw in W2; [|lia]. lia.
Qed.

Theorem C18_truncate_by_time : forall h m lim1 lim2 e1 e2, live h m ->
  m_npts m = length (sig_at h (m_accel m)) -> 0 < m_dt m ->
  0 <= e1 -> 0 <= e2 -> lim1 < lim2 -> - m_dt m < lim2 + e2 ->
  window_result h (sig_at h (m_accel m)) (m_dt m) (lim1 - e1) (lim2 + e2) (gm_truncate h m lim1 lim2 false e1 e2).
Proof.
  intros h m lim1 lim2 e1 e2 Hlv Hnp Hd He1 He2 Hlim Hhi. rewrite gm_truncate_times by auto.
  apply trunc_core_spec; auto.
Qed.

(** Arias limits of a freshly built motion: the window runs between the first
    samples reaching the two fractions of the final intensity. *)
Theorem C18_truncate_by_arias : forall h m lim1 lim2 e1 e2, live h m ->
  let s := sig_at h (m_accel m) in
  m_npts m = length s -> m_dt m = step_of s -> 0 < m_dt m -> calc_Arias s = Ok (m_arias m) -> 0 < ia_peak (m_arias m) ->
  0 <= e1 -> 0 <= e2 -> 0 < lim1 -> lim1 < lim2 -> lim2 <= 1 ->
  exists i j, (1 <= i <= j)%nat /\
    first_at_least (map (fun x => x / ia_peak (m_arias m)) (ia (m_arias m))) lim1 i /\
    first_at_least (map (fun x => x / ia_peak (m_arias m)) (ia (m_arias m))) lim2 j /\
    (- m_dt m < nth j (times s) 0 + e2 ->
     window_result h s (m_dt m) (nth i (times s) 0 - e1) (nth j (times s) 0 + e2) (gm_truncate h m lim1 lim2 true e1 e2)).
Proof.
  intros h m lim1 lim2 e1 e2 Hlv s Hnp Hst Hd HA Hp He1 He2 Hl0 Hlim Hl1.
  destruct (arias_bounds_spec s (m_arias m) lim1 lim2) as (i & j & Hi & Hj & Hij & EB); auto.
  { apply Hlv. } { lra. }
  exists i, j. split; [exact Hij|]. split; [exact Hi|]. split; [exact Hj|]. intros Hhi.
  replace (gm_truncate h m lim1 lim2 true e1 e2) with (trunc_core h m (nth i (times s) 0 - e1) (nth j (times s) 0 + e2)).
  { apply trunc_core_spec; auto. }
  unfold gm_truncate.
  rewrite (proj2 (Rltb_false e1 0)), (proj2 (Rltb_false e2 0)), (proj2 (Rleb_false lim2 lim1)) by lra.
  cbn [orb]. fold s. rewrite EB. reflexivity.
Qed.

(** Finding: for a window that ends before time zero the call does not fail; the
    stop index is negative and counts from the end of the record. *)
Theorem C18_window_before_record : forall h m lim1 lim2 e1 e2 j, live h m ->
  let s := sig_at h (m_accel m) in
  m_npts m = length s -> 0 < m_dt m -> 0 <= e1 -> 0 <= e2 -> lim1 < lim2 ->
  (1 <= j)%nat -> INR j * m_dt m <= - (lim2 + e2) < (INR j + 1) * m_dt m ->
  (j + 2 <= length s)%nat ->
  exists h' m', gm_truncate h m lim1 lim2 false e1 e2 = (h', Ok (m', (0, - Z.of_nat j)%Z)) /\
    sig_at h' (m_accel m') = firstn (length s - j) s.
Proof.
  intros h m lim1 lim2 e1 e2 j [Hl Hn] s Hnp Hd He1 He2 Hlim Hj Hw Hjs. rewrite gm_truncate_times by auto.
  fold s. rewrite Hnp. set (dt := m_dt m) in *.
  assert (Hjr : 1 <= INR j) by (apply (le_INR 1); lia).
  assert (Hx : (lim2 + e2) / dt < 0).
  { apply Rmult_lt_reg_r with dt; [auto|]. unfold Rdiv. rewrite Rmult_assoc, Rinv_l by lra. nra. }
  assert (En2 : py_int ((lim2 + e2) / dt) = (- Z.of_nat j)%Z).
  { unfold py_int. rewrite (proj2 (Rleb_false 0 _)) by exact Hx. f_equal.
    pose proof (Int_part_spec (- ((lim2 + e2) / dt))) as HI. set (z := Int_part _) in *.
    assert (Hq : INR j <= - ((lim2 + e2) / dt) < INR j + 1).
    { replace (- ((lim2 + e2) / dt)) with (- (lim2 + e2) / dt) by (field; lra). split.
      - apply Rmult_le_reg_r with dt; [auto|]. unfold Rdiv. rewrite Rmult_assoc, Rinv_l by lra. lra.
      - apply Rmult_lt_reg_r with dt; [auto|]. unfold Rdiv. rewrite Rmult_assoc, Rinv_l by lra. lra. }
    rewrite INR_IZR_INZ in Hq.
    assert (z < Z.of_nat j + 1)%Z by (apply lt_IZR; rewrite plus_IZR; lra).
    assert (Z.of_nat j < z + 1)%Z by (apply lt_IZR; rewrite plus_IZR; lra). lia. }
  assert (En1 : start_of (lim1 - e1) dt = 0%Z).
  { unfold start_of. assert (Hneg : (lim1 - e1) / dt < 0).
    { apply Rmult_lt_reg_r with dt; [auto|]. unfold Rdiv. rewrite Rmult_assoc, Rinv_l by lra. nra. }
    destruct (py_int_neg _ Hneg) as [H0 _]. destruct (Z.ltb_spec (py_int ((lim1 - e1) / dt)) 0); lia. }
  assert (Es2 : stop_of (lim2 + e2) dt (length s) = (- Z.of_nat j)%Z).
  { unfold stop_of. rewrite En2. destruct (Z.ltb_spec (Z.of_nat (length s)) (- Z.of_nat j)); lia. }
  rewrite En1, Es2. cbv zeta. rewrite Z.sub_0_r.
  assert (Hps : forall A (l : list A), length l = length s -> pyslice 0 (- Z.of_nat j) l = firstn (length s - j) l).
  { intros A l HL. unfold pyslice, clamp_index, slice. destruct (Z.ltb_spec 0 0); [lia|].
    destruct (Z.ltb_spec (- Z.of_nat j) 0); [|lia]. rewrite HL. cbn [Z.to_nat Nat.min skipn]. f_equal. lia. }
  rewrite !Hps by (rewrite ?times_length, ?vals_length; reflexivity).
  rewrite !firstn_length, times_length, vals_length, Nat.eqb_refl. cbn [negb].
  assert (Ec : combine (firstn (length s - j) (times s)) (firstn (length s - j) (vals s)) = firstn (length s - j) s).
  { apply signal_ext.
    - rewrite combine_times by (rewrite !firstn_length, times_length, vals_length; reflexivity).
      unfold times. rewrite firstn_map. reflexivity.
    - rewrite combine_vals by (rewrite !firstn_length, times_length, vals_length; reflexivity).
      unfold vals. rewrite firstn_map. reflexivity. }
  rewrite Ec. destruct (fresh_accel h (firstn (length s - j) s)) as (h' & m' & E & Ea & _).
  { rewrite firstn_length. lia. }
  rew_init E. cbn [bind]. exists h', m'. auto.
Qed.

Theorem C18_bad_arguments : forall h m lim1 lim2 ar e1 e2, (e1 < 0 \/ e2 < 0 \/ lim2 <= lim1) ->
  gm_truncate h m lim1 lim2 ar e1 e2 = (h, Err ValueError).
Proof.
  intros h m lim1 lim2 ar e1 e2 H. unfold gm_truncate.
  destruct (Rltb_spec e1 0); [reflexivity|]. destruct (Rltb_spec e2 0); [reflexivity|].
  cbn [orb]. rewrite (proj2 (Rleb_true lim2 lim1)) by lra. reflexivity.
Qed.

(** Non-vacuity: a four-sample record with step 1, window (1, 3]. *)
Example C18_instance : exists h m, live h m /\ m_npts m = length (sig_at h (m_accel m)) /\ 0 < m_dt m /\
  exists k, (S k < length (sig_at h (m_accel m)))%nat /\ in_window (m_dt m) 1 3 k /\ in_window (m_dt m) 1 3 (S k).
Proof.
  set (s := [(0, 1); (1, 5); (2, 6); (3, 7)] : signal).
  destruct (fresh_accel [] s) as (h & m & E & Ea & _); [cbn; lia|].
  assert (Hl : (0 < length ([] ++ [s]))%nat) by (cbn; lia).
  destruct (C71_constructed_motion _ _ _ _ _ _ Hl E) as
    (a & v & w & _ & _ & _ & _ & _ & _ & _ & Eloc & _ & Hac & Edt & Enp & _).
  exists h, m. split; [split|].
  - rewrite Hac. destruct h; [discriminate Eloc|cbn; lia].
  - rewrite Ea. cbn. lia.
  - rewrite Ea, Edt. split; [exact Enp|]. unfold step_of, in_window. cbn. split; [lra|].
    exists 1%nat. cbn. split; [lia|]. lra.
Qed.

(** ** C19 units *)

(** Size of one acceleration unit in m/s/s (physical constants, g = 9.81). *)
Definition si_size (u : munit) : option R :=
  match u with U_mss => Some 1 | U_cmss | U_gal => Some (1/100) | U_g => Some (981/100) | _ => None end.

Theorem C19_convert_between_units : forall h loc u1 u2 h' m k1 k2, (loc < length h)%nat ->
  gm_init h loc u1 T_accel = (h', Ok m) -> si_size u1 = Some k1 -> si_size u2 = Some k2 ->
  exists out, unit_convert h' m u2 = Ok out /\ times out = times (sig_at h loc) /\
    (forall k, nth k (vals out) 0 * k2 = nth k (vals (sig_at h loc)) 0 * k1) /\
    (u1 = u2 -> out = sig_at h loc).
Proof.
  intros h loc u1 u2 h' m k1 k2 Hl E S1 S2.
  destruct (C71_constructed_motion _ _ _ _ _ _ Hl E) as (a & v & w & Ea & _ & _ & (Ha & _) & _).
  set (s := sig_at h loc) in *.
  assert (Hout : exists out, unit_convert h' m u2 = Ok out /\ times out = times s /\ length out = length s /\
    forall k, (k < length s)%nat -> nth k (vals out) 0 * k2 = nth k (vals s) 0 * k1).
  { unfold unit_convert. rewrite Ea, Ha.
    assert (Hg : forall g, (forall x, g (unit_factor u1 x) * k2 = x * k1) ->
      let out := map (fun tv : R * R => (fst tv, g (snd tv))) (conv u1 s) in
      times out = times s /\ length out = length s /\
      forall k, (k < length s)%nat -> nth k (vals out) 0 * k2 = nth k (vals s) 0 * k1).
    { intros g Hgx out. unfold out, conv, times, vals. rewrite !map_map, !map_length. cbn.
      split; [reflexivity|]. split; [reflexivity|]. intros k Hk.
      rewrite (nth_indep _ 0 (g (unit_factor u1 (snd (0, 0))))) by (rewrite map_length; auto).
      rewrite (map_nth (fun x : R * R => g (unit_factor u1 (snd x))) s (0, 0)), Hgx.
      rewrite (nth_indep _ 0 (snd (0, 0))) by (rewrite map_length; auto). rewrite map_nth. reflexivity. }
    assert (Hid : map (fun tv : R * R => (fst tv, (fun x => x) (snd tv))) (conv u1 s) = conv u1 s).
    { rewrite <- (map_id (conv u1 s)) at 2. apply map_ext. intros [? ?]; reflexivity. }
    destruct u2; try discriminate S2; injection S2 as <-.
    - eexists. split; [reflexivity|]. rewrite <- Hid. apply (Hg (fun x => x)). intros x.
      destruct u1; try discriminate S1; injection S1 as <-; cbn; field.
    - eexists. split; [reflexivity|]. apply (Hg (fun x => x * 100)). intros x.
      destruct u1; try discriminate S1; injection S1 as <-; cbn; field.
    - eexists. split; [reflexivity|]. apply (Hg (fun x => x * 100)). intros x.
      destruct u1; try discriminate S1; injection S1 as <-; cbn; field.
    - eexists. split; [reflexivity|]. apply (Hg (fun x => x / (981/100))). intros x.
      destruct u1; try discriminate S1; injection S1 as <-; cbn; field. }
  destruct Hout as (out & Eo & To & Lo & Ho). exists out. split; [exact Eo|]. split; [exact To|].
  assert (Hall : forall k, nth k (vals out) 0 * k2 = nth k (vals s) 0 * k1).
  { intros k. destruct (Nat.lt_ge_cases k (length s)); [auto|]. rewrite !nth_overflow by (rewrite vals_length; lia). lra. }
  split; [exact Hall|]. intros ->. rewrite S1 in S2. injection S2 as ->.
  apply signal_ext; [exact To|]. apply (list_ext 0); [rewrite !vals_length; exact Lo|].
  intros k _. specialize (Hall k).
  assert (k2 <> 0) by (destruct u2; try discriminate S1; injection S1 as <-; lra).
  apply Rmult_eq_reg_r with k2; auto.
Qed.

Theorem C19_other_units_rejected : forall h m u, si_size u = None -> unit_convert h m u = Err ValueError.
Proof. intros h m u H. destruct u; try discriminate H; reflexivity. Qed.

Example C19_instance : exists h' m out, gm_init gal_demo 0 U_gal T_accel = (h', Ok m) /\
  unit_convert h' m U_mss = Ok out /\ nth 2 (vals out) 0 = -3.
Proof.
  destruct C71_instance as (h' & m & E & _ & _).
  destruct (C19_convert_between_units gal_demo 0 U_gal U_mss h' m (1/100) 1) as (out & Eo & _ & Hk & _);
    [cbn; lia|exact E|reflexivity|reflexivity|].
  exists h', m, out. split; [exact E|]. split; [exact Eo|]. specialize (Hk 2%nat). cbn in Hk. lra.
Qed.

(** ** C20 saving *)

(** Number of units per m/s/s for the units [save_accel] converts to. *)
Definition save_size (u : munit) : R := match si_size u with Some k => k | None => 1 end.

(** Any sequence of save calls on the motion. *)
Definition saves (h : sheap) (m : motion) (us : list munit) : sheap :=
  fold_left (fun h u => fst (save_accel h m u)) us h.

Definition total_size (us : list munit) : R := fold_right (fun u r => save_size u * r) 1 us.
Lemma save_size_pos u : 0 < save_size u.
Proof. unfold save_size. destruct u; cbn; lra. Qed.
Lemma total_size_pos us : 0 < total_size us.
Proof. induction us as [|u us IH]; cbn; [lra|]. apply Rmult_lt_0_compat; [apply save_size_pos|exact IH]. Qed.

Lemma save_accel_spec h m u : (m_accel m < length h)%nat ->
  let s := sig_at h (m_accel m) in
  let out := snd (save_accel h m u) in
  length (fst (save_accel h m u)) = length h /\
  sig_at (fst (save_accel h m u)) (m_accel m) = out /\
  (forall l, l <> m_accel m -> sig_at (fst (save_accel h m u)) l = sig_at h l) /\
  times out = times s /\ length out = length s /\
  forall k, nth k (vals out) 0 * save_size u = nth k (vals s) 0.
Proof.
  intros Hl s out. unfold out, save_accel. fold s. cbn [fst snd]. split; [apply set_nth_length|].
  split; [apply sig_at_set; auto|]. split; [intros l Hne; unfold sig_at; apply set_nth_other; auto|].
  assert (Hg : forall g, g 0 = 0 -> (forall x, g x * save_size u = x) ->
      let o := map (fun tv : R * R => (fst tv, g (snd tv))) s in
      times o = times s /\ length o = length s /\ forall k, nth k (vals o) 0 * save_size u = nth k (vals s) 0).
  { intros g Hg0 Hgx o. unfold o, times, vals. rewrite !map_map, !map_length. cbn.
    split; [reflexivity|]. split; [reflexivity|]. intros k.
    replace 0 with (g (snd (0, 0))) at 1 by (cbn; exact Hg0).
    rewrite (map_nth (fun x : R * R => g (snd x)) s (0, 0)), Hgx.
    replace 0 with (snd (0, 0)) at 3 by reflexivity. rewrite map_nth. reflexivity. }
  assert (Hid : save_size u = 1 -> times s = times s /\ length s = length s /\ forall k, nth k (vals s) 0 * save_size u = nth k (vals s) 0).
  { intros ->. repeat split. intros k. lra. }
  destruct u; try (apply Hid; reflexivity).
  - apply (Hg (fun x => x * 100)); unfold save_size; cbn; intros; field.
  - apply (Hg (fun x => x * 100)); unfold save_size; cbn; intros; field.
  - apply (Hg (fun x => x / (981/100))); unfold save_size; cbn; intros; field.
Qed.

(** After any sequence of saves the object's acceleration is divided by the
    product of all requested unit sizes; the written data are the object's new
    acceleration, so only the first non-SI save writes the right numbers. *)
Theorem C20_after_saves : forall us h m, (m_accel m < length h)%nat ->
  let s := sig_at h (m_accel m) in
  let s' := sig_at (saves h m us) (m_accel m) in
  times s' = times s /\ (forall k, nth k (vals s') 0 * total_size us = nth k (vals s) 0) /\
  (forall l, l <> m_accel m -> sig_at (saves h m us) l = sig_at h l) /\
  (forall u k, nth k (vals (snd (save_accel (saves h m us) m u))) 0 * (save_size u * total_size us) = nth k (vals s) 0).
Proof.
  intros us h m Hl s s'.
  assert (H : length (saves h m us) = length h /\ times s' = times s /\
    (forall k, nth k (vals s') 0 * total_size us = nth k (vals s) 0) /\
    (forall l, l <> m_accel m -> sig_at (saves h m us) l = sig_at h l)).
  { unfold s', s. clear s s'. revert h Hl. induction us as [|u us IH]; intros h Hl; cbn [saves fold_left total_size fold_right].
    - repeat split; intros; lra.
    - destruct (save_accel_spec h m u Hl) as (L & Ea & Ho & T & _ & V).
      destruct (IH (fst (save_accel h m u))) as (L2 & T2 & V2 & O2); [lia|]. unfold saves in *.
      split; [lia|]. split; [rewrite T2, Ea; exact T|]. split.
      + intros k. rewrite <- V. rewrite <- Ea. rewrite <- V2. unfold total_size. lra.
      + intros l Hne. rewrite O2, Ho by auto. reflexivity. }
  destruct H as (L & T & V & O2). split; [exact T|]. split; [exact V|]. split; [exact O2|].
  intros u k. destruct (save_accel_spec (saves h m us) m u) as (_ & _ & _ & _ & _ & V2); [lia|].
  rewrite <- V. fold s' in V2. rewrite <- (V2 k). lra.
Qed.

(** One save leaves a motion unchanged iff the unit is m/s/s or not recognised,
    or every sample is 0. *)
Theorem C20_unchanged_iff : forall h m u, (m_accel m < length h)%nat ->
  (fst (save_accel h m u) = h <->
   (si_size u = Some 1 \/ si_size u = None \/ forall x, In x (vals (sig_at h (m_accel m))) -> x = 0)).
Proof.
  intros h m u Hl. destruct (save_accel_spec h m u Hl) as (L & Ea & Ho & T & Lo & V).
  set (s := sig_at h (m_accel m)) in *. set (out := snd (save_accel h m u)) in *.
  assert (Hheap : out = s -> fst (save_accel h m u) = h).
  { intros Eo. apply (list_ext []); [exact L|]. intros k Hk. destruct (Nat.eq_dec k (m_accel m)) as [->|Hne].
    - change (sig_at (fst (save_accel h m u)) (m_accel m) = sig_at h (m_accel m)). rewrite Ea, Eo. reflexivity.
    - apply Ho. exact Hne. }
  split.
  - intros E. assert (Eo : out = s) by (rewrite <- Ea, E; reflexivity). rewrite Eo in V.
    destruct (si_size u) as [k|] eqn:Ek; [|auto].
    destruct (Req_dec k 1) as [->|Hk]; [auto|]. right; right.
    intros x Hx. apply (In_nth _ _ 0) in Hx as (i & _ & <-). specialize (V i). unfold save_size in V. rewrite Ek in V. nra.
  - intros H. apply Hheap. apply signal_ext; [exact T|]. apply (list_ext 0); [rewrite !vals_length; exact Lo|].
    intros k Hk. rewrite vals_length, Lo in Hk. specialize (V k). destruct H as [H|[H|H]].
    + unfold save_size in V. rewrite H in V. lra.
    + unfold save_size in V. rewrite H in V. lra.
    + specialize (H (nth k (vals s) 0)). rewrite H in * by (apply nth_In; rewrite vals_length; auto).
      pose proof (save_size_pos u). nra.
Qed.

(** The stored peak is not updated: after saving in another unit the attribute no
    longer matches the samples. *)
Theorem C20_peak_goes_stale : forall h loc u0 h' m u p, (loc < length h)%nat ->
  gm_init h loc u0 T_accel = (h', Ok m) -> 0 < m_pga m ->
  max_abs (vals (sig_at (fst (save_accel h' m u)) (m_accel m))) = Ok p ->
  p * save_size u = m_pga m /\ m_accel m = loc.
Proof.
  intros h loc u0 h' m u p Hl E Hp Ep.
  destruct (C71_constructed_motion _ _ _ _ _ _ Hl E) as
    (a & v & w & Ea & _ & _ & (Ha & _) & Ta & _ & _ & Eloc & _ & Hac & _ & _ & P1 & _).
  split; [|exact Hac].
  destruct (proj1 (proj1 (C71_constructor_accepts_iff h loc u0 T_accel Hl))) as [Hn _]; [eauto|].
  assert (La : length a = length (sig_at h loc)) by (rewrite <- times_length, Ta, times_length; reflexivity).
  assert (Hl' : (m_accel m < length h')%nat).
  { destruct (Nat.lt_ge_cases (m_accel m) (length h')) as [|Hge]; [auto|].
    unfold sig_at in Ea. rewrite nth_overflow in Ea by auto. rewrite <- Ea in La. cbn in La. unfold sig_at in Hn. unfold sig_at in La. lia. }
  destruct (save_accel_spec h' m u Hl') as (_ & Es & _ & _ & Lo & V).
  rewrite Es in Ep. rewrite Ea in *. set (out := snd (save_accel h' m u)) in *. pose proof (save_size_pos u) as Hs.
  assert (Hv : vals a = map (fun x => x * save_size u) (vals out)).
  { apply (list_ext 0); [rewrite map_length, !vals_length; lia|]. intros k Hk. rewrite map_mul_nth. symmetry. apply V. }
  assert (Hno : vals out <> []) by (apply vals_ne; lia).
  pose proof (max_abs_scale (vals out) (save_size u) p Hno Ep) as E2. rewrite <- Hv, P1 in E2. injection E2 as ->.
  rewrite Rabs_pos_eq by lra. lra.
Qed.

Example C20_instance : exists h' m, gm_init gal_demo 0 U_gal T_accel = (h', Ok m) /\ (m_accel m < length h')%nat /\
  fst (save_accel h' m U_gal) <> h' /\ m_pga m = 3.
Proof.
  destruct C17_instance as (h' & m & _ & _ & E & [Hl _] & _). exists h', m.
  assert (Hl0 : (0 < length gal_demo)%nat) by (cbn; lia).
  destruct (C71_constructed_motion _ _ _ _ _ _ Hl0 E) as (a & v & w & Ea & _ & _ & (Ha & _) & _).
  destruct C71_instance as (h2 & m2 & E2 & _ & Ep). rewrite E in E2. injection E2 as <- <-.
  split; [exact E|]. split; [exact Hl|]. split; [|exact Ep]. intros Eh. apply C20_unchanged_iff in Eh; [|exact Hl].
  destruct Eh as [H|[H|H]]; [injection H; lra|discriminate|].
  rewrite Ea, Ha in H. specialize (H (100/100)). cbn in H. lra.
Qed.

(** ** C21 peak picking *)

(** Position of the first sample not exceeded by its successor. *)
Definition first_drop (v : list R) (j : nat) : Prop :=
  (S j < length v)%nat /\ nth (S j) v 0 <= nth j v 0 /\ forall i, (i < j)%nat -> nth i v 0 < nth (S i) v 0.

Lemma f0_scan_drop v : forall i0 j, first_drop v j -> f0_scan v true i0 = (i0 + j)%nat.
Proof.
  induction v as [|a v IH]; intros i0 j (Hj & Hd & Hr); [cbn in Hj; lia|]. destruct v as [|b v]; [cbn in Hj; lia|].
  change (f0_scan (a :: b :: v) true i0) with
    (if negb (Rltb 0 (b - a)) && true then i0 else f0_scan (b :: v) (Rltb 0 (b - a)) (S i0)).
  destruct j as [|j].
  - cbn in Hd. rewrite (proj2 (Rltb_false 0 (b - a))) by lra. cbn. lia.
  - pose proof (Hr 0%nat ltac:(lia)) as H0. cbn in H0. rewrite (proj2 (Rltb_true 0 (b - a))) by lra. cbn [negb andb].
    rewrite (IH (S i0) j); [lia|]. split; [cbn in *; lia|]. split; [exact Hd|]. intros i Hi. apply (Hr (S i)). lia.
Qed.

Lemma f0_scan_rising v : forall i0, (2 <= length v)%nat -> (forall i, (S i < length v)%nat -> nth i v 0 < nth (S i) v 0) ->
  f0_scan v true i0 = (i0 + length v - 2)%nat.
Proof.
  induction v as [|a v IH]; intros i0 Hn Hr; [cbn in Hn; lia|]. destruct v as [|b v]; [cbn in Hn; lia|].
  change (f0_scan (a :: b :: v) true i0) with
    (if negb (Rltb 0 (b - a)) && true then i0 else f0_scan (b :: v) (Rltb 0 (b - a)) (S i0)).
  pose proof (Hr 0%nat ltac:(cbn; lia)) as H0. cbn in H0. rewrite (proj2 (Rltb_true 0 (b - a))) by lra. cbn [negb andb].
  destruct v as [|c v].
  - cbn. lia.
  - rewrite IH.
    + cbn [length]. lia.
    + cbn. lia.
    + intros i Hi. apply (Hr (S i)). cbn in *. lia.
Qed.

Lemma drop_or_rising v : (exists j, first_drop v j) \/ (forall i, (S i < length v)%nat -> nth i v 0 < nth (S i) v 0).
Proof.
  induction v as [|a v IH]; [right; cbn; intros; lia|]. destruct v as [|b v]; [right; cbn; intros; lia|].
  destruct (Rlt_dec a b) as [Hab|Hab].
  - destruct IH as [(j & Hj & Hd & Hr)|Hr].
    + left. exists (S j). split; [cbn in *; lia|]. split; [exact Hd|]. intros [|i] Hi; [exact Hab|]. apply Hr. lia.
    + right. intros [|i] Hi; [exact Hab|]. apply Hr. cbn in *. lia.
  - left. exists 0%nat. split; [cbn; lia|]. split; [cbn; lra|]. intros; lia.
Qed.

Theorem C21_find_f0 : forall x,
  ((length x < 2)%nat -> find_f0 x = Err UnboundLocalError) /\
  (forall j, first_drop (vals x) j -> (j + 2 < length x)%nat -> find_f0 x = Ok (nth j (times x) 0)) /\
  ((2 <= length x)%nat -> (forall j, first_drop (vals x) j -> (j + 2 = length x)%nat) ->
    find_f0 x = Ok (last (times x) 0)).
Proof.
  intros x. split; [|split].
  - intros H. unfold find_f0. destruct (Nat.ltb_spec (length x) 2); [reflexivity|lia].
  - intros j Hj Hl. unfold find_f0. destruct (Nat.ltb_spec (length x) 2); [lia|].
    rewrite (f0_scan_drop _ 0 j Hj), Nat.add_0_l. destruct (Nat.eqb_spec j (length x - 2)); [lia|].
    apply get_ok. rewrite times_length. lia.
  - intros Hn Hall. unfold find_f0. destruct (Nat.ltb_spec (length x) 2); [lia|].
    assert (Ei : f0_scan (vals x) true 0 = (length x - 2)%nat).
    { destruct (drop_or_rising (vals x)) as [(j & Hj)|Hr].
      - rewrite (f0_scan_drop _ 0 j Hj). specialize (Hall j Hj). lia.
      - rewrite f0_scan_rising; rewrite ?vals_length; auto. intros i Hi. apply Hr. rewrite vals_length. exact Hi. }
    rewrite Ei, Nat.eqb_refl. rewrite (get_ok _ _ 0) by (rewrite times_length; lia). f_equal.
    rewrite last_nth by (apply ne_of_len; rewrite times_length; lia). f_equal. rewrite times_length. lia.
Qed.

(** The frequency returned for an interior peak carries a larger amplitude than
    every earlier sample and at least that of the next one. *)
Theorem C21_first_peak_dominates : forall x j, first_drop (vals x) j -> (j + 2 < length x)%nat ->
  find_f0 x = Ok (nth j (times x) 0) /\ (forall i, (i < j)%nat -> nth i (vals x) 0 < nth j (vals x) 0) /\
  nth (S j) (vals x) 0 <= nth j (vals x) 0.
Proof.
  intros x j Hj Hl. split; [apply C21_find_f0; auto|]. destruct Hj as (_ & Hd & Hr). split; [|exact Hd].
  intros i Hi. induction j as [|j IH]; [lia|].
  assert (H1 : nth j (vals x) 0 < nth (S j) (vals x) 0) by (apply Hr; lia).
  destruct (Nat.eq_dec i j) as [->|]; [exact H1|].
  assert (Hx : nth i (vals x) 0 < nth j (vals x) 0); [|lra].
  clear -Hr n Hi. assert (Hij : (i < j)%nat) by lia. clear n Hi. induction j as [|j IH]; [lia|].
  assert (H1 : nth j (vals x) 0 < nth (S j) (vals x) 0) by (apply Hr; lia).
  destruct (Nat.eq_dec i j) as [->|]; [exact H1|]. specialize (IH ltac:(intros; apply Hr; lia) ltac:(lia)). lra.
Qed.

(** Finding: a peak at the last-but-one sample is missed; the last frequency is
    returned although its amplitude is smaller. *)
Theorem C21_penultimate_peak_missed : forall x j, first_drop (vals x) j -> (j + 2 = length x)%nat ->
  find_f0 x = Ok (nth (S j) (times x) 0) /\ nth (S j) (vals x) 0 <= nth j (vals x) 0.
Proof.
  intros x j Hj Hl. split; [|apply Hj].
  unfold find_f0. destruct (Nat.ltb_spec (length x) 2); [lia|].
  rewrite (f0_scan_drop _ 0 j Hj), Nat.add_0_l. destruct (Nat.eqb_spec j (length x - 2)); [|lia].
  apply get_ok. rewrite times_length. lia.
Qed.

Example C21_instance : first_drop (vals [(1, 2); (2, 5); (3, 4); (4, 9)]) 1 /\
  find_f0 [(1, 2); (2, 5); (3, 4); (4, 9)] = Ok 2 /\ find_f0 [(1, 2); (2, 5); (3, 4)] = Ok 3.
Proof.
  assert (H : first_drop (vals [(1, 2); (2, 5); (3, 4); (4, 9)]) 1).
  { split; [cbn; lia|]. split; [cbn; lra|]. intros [|i] Hi; [cbn; lra|lia]. }
  split; [exact H|]. split.
  - apply (C21_first_peak_dominates [(1, 2); (2, 5); (3, 4); (4, 9)] 1); [exact H|cbn; lia].
  - apply (C21_penultimate_peak_missed [(1, 2); (2, 5); (3, 4)] 1); [|cbn; lia].
    split; [cbn; lia|]. split; [cbn; lra|]. intros [|i] Hi; [cbn; lra|lia].
Qed.
