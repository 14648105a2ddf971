(** Specifications and lemmas for M_motion. *)
From Coq Require Import Reals List Bool ZArith Lia Lra.
From Verif Require Import Base M_generic P_generic M_profile P_profile M_vs_profile P_vs_profile M_motion.
Import ListNotations.
Open Scope R_scope.

(** Sampling interval of a record and evenly spaced records. *)
Definition step_of (s : signal) : R := nth 1 (times s) 0 - nth 0 (times s) 0.
Definition evenly_spaced (s : signal) : Prop :=
  forall k, (S k < length s)%nat -> nth (S k) (times s) 0 - nth k (times s) 0 = step_of s.

Lemma times_length s : length (times s) = length s. Proof. apply map_length. Qed.
Lemma vals_length s : length (vals s) = length s. Proof. apply map_length. Qed.

Lemma times_with_vals s v : length v = length s -> times (with_vals s v) = times s.
Proof.
  unfold with_vals, times. revert v; induction s as [|a s IH]; intros [|x v] H; cbn in *; try discriminate; f_equal.
  apply IH. lia.
Qed.
Lemma vals_with_vals s v : length v = length s -> vals (with_vals s v) = v.
Proof.
  unfold with_vals, times, vals. revert v; induction s as [|a s IH]; intros [|x v] H; cbn in *; try discriminate; f_equal.
  apply IH. lia.
Qed.
Lemma with_vals_length s v : length v = length s -> length (with_vals s v) = length s.
Proof. intros H. unfold with_vals. rewrite combine_length, times_length. lia. Qed.
Lemma signal_ext (s s' : signal) : times s = times s' -> vals s = vals s' -> s = s'.
Proof.
  unfold times, vals. revert s'; induction s as [|[a b] s IH]; intros [|[c d] s']; cbn; intros H1 H2; try discriminate; auto.
  injection H1 as -> H1. injection H2 as -> H2. f_equal. auto.
Qed.

Lemma first_step_ok s : (2 <= length s)%nat -> first_step s = Ok (step_of s).
Proof.
  intros H. unfold first_step, step_of.
  rewrite (get_ok _ 1 0), (get_ok _ 0 0) by (rewrite times_length; lia). reflexivity.
Qed.
Lemma first_step_err s : (length s < 2)%nat -> first_step s = Err IndexError.
Proof. intros H. unfold first_step. rewrite get_err by (rewrite times_length; lia). reflexivity. Qed.

Lemma map_mul_nth (l : list R) c k : nth k (map (fun x => x * c) l) 0 = nth k l 0 * c.
Proof. replace 0 with (0 * c) at 1 by lra. exact (map_nth (fun x => x * c) l 0 k). Qed.

Lemma cumsum_nth l k : (k < length l)%nat -> nth k (cumsum l) 0 = rsum (firstn (S k) l).
Proof. intros H. unfold cumsum. rewrite cumsum_from_nth by auto. lra. Qed.
Lemma cumsum_length l : length (cumsum l) = length l.
Proof. apply cumsum_from_length. Qed.

Lemma num_int_spec s : (2 <= length s)%nat ->
  exists v u, num_int s = Ok (v, u) /\
    times v = times s /\ times u = times s /\ length v = length s /\ length u = length s /\
    (forall k, (k < length s)%nat -> nth k (vals v) 0 = step_of s * rsum (firstn (S k) (vals s))) /\
    (forall k, (k < length s)%nat -> nth k (vals u) 0 = step_of s * rsum (firstn (S k) (vals v))).
Proof.
  intros H. unfold num_int. rewrite first_step_ok by auto. cbn [bind].
  set (v := map (fun x => x * step_of s) (cumsum (vals s))).
  set (u := map (fun x => x * step_of s) (cumsum v)).
  assert (Lv : length v = length s) by (unfold v; rewrite map_length, cumsum_length, vals_length; auto).
  assert (Lu : length u = length s) by (unfold u; rewrite map_length, cumsum_length; auto).
  exists (with_vals s v), (with_vals s u). split; [reflexivity|].
  rewrite !times_with_vals, !with_vals_length, !vals_with_vals by auto. repeat split; auto.
  - intros k Hk. unfold v. rewrite map_mul_nth, cumsum_nth by (rewrite vals_length; auto). lra.
  - intros k Hk. unfold u. rewrite map_mul_nth, cumsum_nth by lia. lra.
Qed.

Lemma diffs_length l : length (diffs l) = (length l - 1)%nat.
Proof.
  induction l as [|a l IH]; [reflexivity|]. destruct l as [|b l]; [reflexivity|].
  change (diffs (a :: b :: l)) with ((b - a) :: diffs (b :: l)). cbn [length] in *. lia.
Qed.
Lemma diffs_nth l : forall k, (S k < length l)%nat -> nth k (diffs l) 0 = nth (S k) l 0 - nth k l 0.
Proof.
  induction l as [|a l IH]; intros k H; [cbn in H; lia|]. destruct l as [|b l]; [cbn in H; lia|].
  change (diffs (a :: b :: l)) with ((b - a) :: diffs (b :: l)).
  destruct k as [|k]; [reflexivity|]. cbn [nth]. rewrite IH by (cbn in *; lia). reflexivity.
Qed.

Lemma num_diff_spec s : s <> [] ->
  exists a, num_diff s = Ok a /\ times a = times s /\ length a = length s /\ nth 0 (vals a) 0 = 0 /\
    forall k, (S k < length s)%nat ->
      nth (S k) (vals a) 0 = (nth (S k) (vals s) 0 - nth k (vals s) 0) / (nth (S k) (times s) 0 - nth k (times s) 0).
Proof.
  intros H. unfold num_diff. destruct s as [|r s]; [congruence|]. set (s0 := r :: s) in *.
  set (q := map (fun vt => fst vt / snd vt) (combine (diffs (vals s0)) (diffs (times s0)))).
  assert (Lq : length (0 :: q) = length s0).
  { unfold q. cbn [length]. rewrite map_length, combine_length, !diffs_length, vals_length, times_length. cbn. lia. }
  exists (with_vals s0 (0 :: q)). split; [reflexivity|].
  rewrite times_with_vals, with_vals_length, vals_with_vals by auto. repeat split.
  intros k Hk. cbn [nth]. unfold q.
  set (g := fun vt : R * R => fst vt / snd vt).
  rewrite (nth_indep _ 0 (g (0, 0))).
  - rewrite (map_nth g), combine_nth by (rewrite !diffs_length, vals_length, times_length; auto).
    unfold g. cbn [fst snd]. rewrite !diffs_nth by (rewrite ?vals_length, ?times_length; auto). reflexivity.
  - rewrite map_length, combine_length, !diffs_length, vals_length, times_length. cbn in *. lia.
Qed.

(** ** Arias intensity *)
Definition arias_const : R := PI / (2 * (981 / 100)).
Lemma arias_const_pos : 0 < arias_const.
Proof. unfold arias_const. pose proof PI_RGT_0. apply Rdiv_lt_0_compat; lra. Qed.

Definition energy (a : list R) : R := rsum (map (fun x => x * x) a).
Lemma energy_nonneg a : 0 <= energy a.
Proof. unfold energy. apply rsum_nonneg. rewrite Forall_map. apply Forall_forall. intros x _. nra. Qed.
Lemma energy_cons x a : energy (x :: a) = x * x + energy a. Proof. reflexivity. Qed.

Lemma arias_length a : forall acc dt, length (arias_from acc dt a) = length a.
Proof. induction a; cbn; auto. Qed.
Lemma arias_nth a : forall acc dt k, (k < length a)%nat ->
  nth k (arias_from acc dt a) 0 = acc + arias_const * dt * energy (firstn k a).
Proof.
  induction a as [|x a IH]; intros acc dt k Hk; [cbn in Hk; lia|].
  destruct k as [|k]; [cbn; unfold energy; cbn; lra|].
  change (arias_from acc dt (x :: a)) with (acc :: arias_from (acc + arias_const * (x * x) * dt) dt a).
  cbn [nth firstn]. rewrite IH by (cbn in Hk; lia). rewrite energy_cons. lra.
Qed.

Lemma energy_firstn_mono a i j : (i <= j)%nat -> energy (firstn i a) <= energy (firstn j a).
Proof.
  revert i j; induction a as [|x a IH]; intros i j H.
  - rewrite !firstn_nil. lra.
  - destruct i as [|i]; [unfold energy at 1; cbn; apply energy_nonneg|]. destruct j as [|j]; [lia|].
    cbn [firstn]. rewrite !energy_cons. specialize (IH i j ltac:(lia)). lra.
Qed.

Lemma energy_pos a x : In x a -> x <> 0 -> 0 < energy a.
Proof.
  induction a as [|y a IH]; intros Hin Hx; [contradiction|].
  rewrite energy_cons. pose proof (energy_nonneg a).
  destruct Hin as [->|Hin]; [nra|]. specialize (IH Hin Hx). nra.
Qed.

Lemma energy_zero a : energy a = 0 -> forall x, In x a -> x = 0.
Proof.
  intros H x Hin. destruct (Req_dec x 0) as [|Hx]; [auto|].
  pose proof (energy_pos a x Hin Hx). lra.
Qed.

(** ** Threshold crossing *)
Fixpoint scan1 (t : list R) (xs : list num) (prev : num) (c d : R) : R :=
  match t, xs with
  | ti :: t', x :: xs' => scan1 t' xs' x c (if nleb (Fin c) x && nltb prev (Fin c) then ti else d)
  | _, _ => d
  end.

Lemma bounds_scan_split t : forall xs prev lo hi a b,
  bounds_scan t xs prev lo hi a b = (scan1 t xs prev lo a, scan1 t xs prev hi b).
Proof. induction t as [|ti t IH]; intros [|x xs] prev lo hi a b; cbn; auto. Qed.

Lemma scan1_nan t : forall xs prev c d, Forall (fun x => x = NaN) xs -> scan1 t xs prev c d = d.
Proof.
  induction t as [|ti t IH]; intros xs prev c d H; [reflexivity|]. destruct H as [|x xs -> H]; [reflexivity|].
  cbn. apply IH, H.
Qed.

(** Non-decreasing real sequences. *)
Definition nondecr (xs : list R) : Prop := forall i j, (i <= j < length xs)%nat -> nth i xs 0 <= nth j xs 0.

Lemma scan1_above t : forall xs prev c d, c <= prev -> (forall x, In x xs -> prev <= x) -> nondecr xs ->
  scan1 t (map Fin xs) (Fin prev) c d = d.
Proof.
  induction t as [|ti t IH]; intros [|x xs] prev c d Hc Hp Hn; cbn [map scan1]; try reflexivity.
  cbn [nltb]. rewrite (proj2 (Rltb_false prev c)) by lra. rewrite andb_false_r. apply IH.
  - specialize (Hp x (or_introl eq_refl)). lra.
  - intros y Hy. apply (In_nth _ _ 0) in Hy as (k & Hk & <-). apply (Hn 0 (S k))%nat. cbn. lia.
  - intros i j Hij. apply (Hn (S i) (S j)). cbn. lia.
Qed.

Lemma scan1_first t : forall xs prev c d i, prev < c -> nondecr xs -> length t = length xs ->
  (i < length xs)%nat -> c <= nth i xs 0 -> (forall j, (j < i)%nat -> nth j xs 0 < c) ->
  scan1 t (map Fin xs) (Fin prev) c d = nth i t 0.
Proof.
  induction t as [|ti t IH]; intros [|x xs] prev c d i Hp Hn HL Hi Hc Hj; cbn in Hi; try lia; cbn in HL; try discriminate.
  cbn [map scan1 nltb nleb]. rewrite (proj2 (Rltb_true prev c)) by lra. rewrite andb_true_r.
  assert (Hn' : nondecr xs) by (intros a b Hab; apply (Hn (S a) (S b)); cbn; lia).
  destruct i as [|i].
  - cbn in Hc. rewrite (proj2 (Rleb_true c x)) by lra. cbn [nth]. apply scan1_above; auto.
    intros y Hy. apply (In_nth _ _ 0) in Hy as (k & Hk & <-). apply (Hn 0 (S k))%nat. cbn. lia.
  - assert (x < c) by (apply (Hj 0%nat); lia). rewrite (proj2 (Rleb_false c x)) by lra.
    cbn [nth]. apply IH; auto; try lia. intros j Hji. apply (Hj (S j)). lia.
Qed.

Lemma scan1_none t : forall xs prev c d, (forall x, In x xs -> x < c) ->
  scan1 t (map Fin xs) (Fin prev) c d = d.
Proof.
  induction t as [|ti t IH]; intros [|x xs] prev c d H; cbn [map scan1]; try reflexivity.
  cbn [nleb]. rewrite (proj2 (Rleb_false c x)) by (apply H; cbn; auto). cbn [andb].
  apply IH. intros y Hy. apply H; cbn; auto.
Qed.

(** Least position with value at least [c]. *)
Definition first_at_least (xs : list R) (c : R) (i : nat) : Prop :=
  (i < length xs)%nat /\ c <= nth i xs 0 /\ forall j, (j < i)%nat -> nth j xs 0 < c.

Lemma first_at_least_exists xs c : (exists x, In x xs /\ c <= x) -> exists i, first_at_least xs c i.
Proof.
  induction xs as [|y xs IH]; intros (x & Hin & Hx); [contradiction|].
  destruct (Rle_dec c y) as [Hy|Hy].
  - exists 0%nat. split; [cbn; lia|]. split; [exact Hy|]. intros; lia.
  - destruct Hin as [->|Hin]; [lra|]. destruct IH as (i & Hi & Hc & Hj); [eauto|].
    exists (S i). split; [cbn; lia|]. split; [exact Hc|]. intros [|j] Hji; [cbn; lra|]. apply Hj. lia.
Qed.

Lemma last_nth (l : list R) : l <> [] -> last l 0 = nth (length l - 1) l 0.
Proof.
  intros H. destruct (exists_last H) as (i & a & ->). rewrite last_last, app_length. cbn.
  rewrite app_nth2 by lia. replace (length i + 1 - 1 - length i)%nat with 0%nat by lia. reflexivity.
Qed.

Lemma nth_map0 (f : R -> R) l k : (k < length l)%nat -> nth k (map f l) 0 = f (nth k l 0).
Proof. intros H. rewrite (nth_indep _ 0 (f 0)) by (rewrite map_length; auto). apply map_nth. Qed.

(** Arias results for a record whose samples (but the last) are not all zero. *)
Lemma calc_Arias_spec s : (2 <= length s)%nat ->
  let dt := step_of s in
  let n := length s in
  let peak := arias_const * dt * energy (firstn (n - 1) (vals s)) in
  exists r, calc_Arias s = Ok r /\ length (ia r) = n /\
    (forall k, (k < n)%nat -> nth k (ia r) 0 = arias_const * dt * energy (firstn k (vals s))) /\
    ia_peak r = peak /\
    (peak <> 0 -> ia_norm r = map Fin (map (fun x => x / peak) (ia r))) /\
    (peak = 0 -> dt <> 0 -> ia_norm r = repeat NaN n /\ t5_95 r = last (times s) 0) /\
    (0 < peak -> 0 < dt ->
       let xs := map (fun x => x / peak) (ia r) in
       exists i j, first_at_least xs (5/100) i /\ first_at_least xs (95/100) j /\
         (1 <= i <= j)%nat /\ t5_95 r = nth j (times s) 0 - nth i (times s) 0).
Proof.
  intros Hn dt n peak. unfold calc_Arias. rewrite first_step_ok by auto. cbn [bind]. fold dt.
  set (i0 := arias_from 0 dt (vals s)).
  assert (Li : length i0 = n) by (unfold i0; rewrite arias_length, vals_length; reflexivity).
  assert (Hne : i0 <> []) by (destruct i0; [cbn in Li; unfold n in *; lia|discriminate]).
  assert (Hnth : forall k, (k < n)%nat -> nth k i0 0 = arias_const * dt * energy (firstn k (vals s))).
  { intros k Hk. unfold i0. rewrite arias_nth by (rewrite vals_length; exact Hk). lra. }
  assert (Hpk : last i0 0 = peak).
  { rewrite last_nth, Li, Hnth by (auto; unfold n in *; lia). reflexivity. }
  rewrite (last_res_ok i0 0 Hne), Hpk. cbn [bind].
  set (nrm := normalise i0 peak).
  assert (Ln : length nrm = n) by (unfold nrm, normalise; rewrite map_length; exact Li).
  unfold arias_time_bounds. rewrite (proj2 (Rleb_false (95/100) (5/100))) by lra.
  rewrite times_length, Ln, Nat.eqb_refl. cbn [negb].
  assert (Htn : times s <> []) by (intros E; apply (f_equal (@length _)) in E; rewrite times_length in E; cbn in E; lia).
  rewrite (last_res_ok _ 0 Htn). cbn [bind].
  rewrite (get_ok nrm 0 NaN) by (rewrite Ln; unfold n; lia). cbn [bind].
  rewrite bounds_scan_split. cbn [fst snd].
  eexists. split; [reflexivity|]. cbn [ia ia_norm ia_peak t5_95]. fold nrm.
  split; [exact Li|]. split; [exact Hnth|]. split; [reflexivity|].
  assert (Hnz : peak <> 0 -> nrm = map Fin (map (fun x => x / peak) i0)).
  { intros Hp. unfold nrm, normalise. rewrite (proj2 (Reqb_false peak 0)) by auto. rewrite map_map. reflexivity. }
  split; [exact Hnz|]. split.
  - intros Hp Hdt.
    assert (HN : nrm = repeat NaN n).
    { unfold nrm, normalise. rewrite (proj2 (Reqb_true peak 0) Hp).
      assert (Hz : forall x, In x i0 -> x = 0).
      { intros x Hx. apply (In_nth _ _ 0) in Hx as (k & Hk & <-). rewrite Li in Hk. rewrite Hnth by auto.
        assert (E1 : energy (firstn (n - 1) (vals s)) = 0).
        { unfold peak in Hp. pose proof arias_const_pos. apply Rmult_integral in Hp as [Hp|Hp]; [|exact Hp].
          apply Rmult_integral in Hp as [Hp|Hp]; lra. }
        pose proof (energy_firstn_mono (vals s) k (n - 1) ltac:(lia)). pose proof (energy_nonneg (firstn k (vals s))).
        replace (energy (firstn k (vals s))) with 0 by lra. lra. }
      rewrite <- Li. clear -Hz. induction i0 as [|x l IH]; cbn; [reflexivity|].
      rewrite (Hz x (or_introl eq_refl)), (proj2 (Reqb_true 0 0) eq_refl). f_equal. apply IH.
      intros y Hy. apply Hz. cbn; auto. }
    split; [exact HN|].
    assert (HF : Forall (fun x => x = NaN) nrm).
    { rewrite HN. apply Forall_forall. intros x Hx. apply repeat_spec in Hx. exact Hx. }
    rewrite !scan1_nan by exact HF. lra.
  - intros Hp Hdt. set (xs := map (fun x => x / peak) i0). rewrite (Hnz ltac:(lra)). fold xs.
    assert (Lxs : length xs = n) by (unfold xs; rewrite map_length; exact Li).
    assert (Hx : forall k, (k < n)%nat -> nth k xs 0 = nth k i0 0 / peak).
    { intros k Hk. unfold xs. apply (nth_map0 (fun x => x / peak)). lia. }
    assert (Hmono : nondecr xs).
    { intros a b Hab. rewrite Lxs in Hab. rewrite !Hx by lia.
      apply Rmult_le_compat_r; [apply Rlt_le, Rinv_0_lt_compat; lra|]. rewrite !Hnth by lia.
      apply Rmult_le_compat_l; [apply Rmult_le_pos; [apply Rlt_le, arias_const_pos|lra]|].
      apply energy_firstn_mono. lia. }
    assert (H0 : nth 0 xs 0 = 0).
    { rewrite Hx, Hnth by lia. unfold energy; cbn. unfold Rdiv. lra. }
    assert (H1 : nth (n - 1) xs 0 = 1).
    { rewrite Hx, Hnth by lia. unfold peak. fold peak. field. lra. }
    assert (Hin1 : In 1 xs) by (rewrite <- H1; apply nth_In; lia).
    destruct (first_at_least_exists xs (5/100)) as (i & Hi1 & Hi2 & Hi3); [exists 1; split; [auto|lra]|].
    destruct (first_at_least_exists xs (95/100)) as (j & Hj1 & Hj2 & Hj3); [exists 1; split; [auto|lra]|].
    exists i, j. split; [split; auto|]. split; [split; auto|]. split.
    + split.
      * destruct i; [rewrite H0 in Hi2; lra|lia].
      * destruct (Nat.le_gt_cases i j) as [|Hgt]; [auto|]. specialize (Hi3 j Hgt). lra.
    + assert (Eprev : nth 0 (map Fin xs) NaN = Fin (nth 0 xs 0)).
      { rewrite (nth_indep _ NaN (Fin 0)) by (rewrite map_length; lia). apply map_nth. }
      rewrite Eprev, H0.
      rewrite (scan1_first _ _ 0 (95/100) _ j), (scan1_first _ _ 0 (5/100) _ i); auto; try lra;
        rewrite ?times_length, ?Lxs; auto.
Qed.

(** ** Maxima *)
Lemma max_abs_ok v : v <> [] -> exists m, max_abs v = Ok m /\ 0 <= m /\
  (forall x, In x v -> Rabs x <= m) /\ (exists x, In x v /\ m = Rabs x).
Proof.
  intros H. destruct v as [|x v]; [congruence|]. unfold max_abs. cbn [map].
  exists (rmax_from (Rabs x) (map Rabs v)). split; [reflexivity|]. split; [|split].
  - pose proof (rmax_from_ge (map Rabs v) (Rabs x)). pose proof (Rabs_pos x). lra.
  - intros y [<-|Hy]; [apply rmax_from_ge|]. apply rmax_from_in. apply in_map. exact Hy.
  - destruct (rmax_from_witness (map Rabs v) (Rabs x)) as [E|E].
    + exists x. cbn. auto.
    + apply in_map_iff in E as (y & E & Hy). exists y. cbn. auto.
Qed.

Lemma max_abs_unique v m1 m2 : (forall x, In x v -> Rabs x <= m1) -> (exists x, In x v /\ m1 = Rabs x) ->
  (forall x, In x v -> Rabs x <= m2) -> (exists x, In x v /\ m2 = Rabs x) -> m1 = m2.
Proof.
  intros H1 (x & Hx & ->) H2 (y & Hy & ->). specialize (H1 y Hy). specialize (H2 x Hx). lra.
Qed.

(** ** Construction of a motion *)
Definition conv (u : munit) (s : signal) : signal := map (fun tv => (fst tv, unit_factor u (snd tv))) s.
Lemma conv_length u s : length (conv u s) = length s. Proof. apply map_length. Qed.
Lemma conv_times u s : times (conv u s) = times s.
Proof. unfold conv, times. rewrite map_map. reflexivity. Qed.
Lemma conv_vals u s : vals (conv u s) = map (unit_factor u) (vals s).
Proof. unfold conv, vals. rewrite !map_map. reflexivity. Qed.
Lemma conv_step u s : step_of (conv u s) = step_of s.
Proof. unfold step_of. rewrite conv_times. reflexivity. Qed.

(** Unit and motion type the constructor accepts. *)
Definition acceptable (u : munit) (ty : mtype) : Prop :=
  u <> U_bad /\ ty <> T_bad /\ ((u = U_g \/ u = U_gal) -> ty = T_accel).

(** The three histories derived from the (converted) data. *)
Definition histories (ty : mtype) (d a v u : signal) : Prop :=
  match ty with
  | T_accel => a = d /\ num_int d = Ok (v, u)
  | T_veloc => num_diff d = Ok a /\ v = d /\ exists w, num_int d = Ok (u, w)
  | _ => num_diff d = Ok v /\ num_diff v = Ok a /\ u = d
  end.

Lemma ne_of_len {A} (l : list A) : (2 <= length l)%nat -> l <> [].
Proof. destruct l; [cbn; lia|discriminate]. Qed.

Lemma vals_ne s : (2 <= length s)%nat -> vals s <> [].
Proof. intros H. apply ne_of_len. rewrite vals_length. exact H. Qed.

Lemma histories_exist ty d : (2 <= length d)%nat -> exists a v u, histories ty d a v u /\
  length a = length d /\ length v = length d /\ length u = length d /\
  times a = times d /\ times v = times d /\ times u = times d.
Proof.
  intros H. destruct (num_int_spec d H) as (v & u & E & T1 & T2 & L1 & L2 & _).
  destruct (num_diff_spec d (ne_of_len _ H)) as (a & Ea & Ta & La & _).
  destruct ty; cbn [histories].
  - exists d, v, u. repeat split; auto.
  - exists a, d, v. split; [split; [exact Ea|split; [reflexivity|eauto]]|]. repeat split; auto.
  - destruct (num_diff_spec a) as (b & Eb & Tb & Lb & _); [apply ne_of_len; lia|].
    exists b, a, d. repeat split; auto; congruence.
  - destruct (num_diff_spec a) as (b & Eb & Tb & Lb & _); [apply ne_of_len; lia|].
    exists b, a, d. repeat split; auto; congruence.
Qed.

Lemma sig_at_set h loc s : (loc < length h)%nat -> sig_at (set_nth loc s h) loc = s.
Proof. intros H. unfold sig_at. apply set_nth_same; auto. Qed.

(** Complete description of a successful construction. *)
Lemma gm_finish_spec h loc dt ty : (loc < length h)%nat -> (2 <= length (sig_at h loc))%nat -> ty <> T_bad ->
  exists h' m a v u, gm_finish h loc dt ty = (h', Ok m) /\
    histories ty (sig_at h loc) a v u /\
    (length a = length (sig_at h loc) /\ length v = length (sig_at h loc) /\ length u = length (sig_at h loc)) /\
    (times a = times (sig_at h loc) /\ times v = times (sig_at h loc) /\ times u = times (sig_at h loc)) /\
    sig_at h' (m_accel m) = a /\ sig_at h' (m_veloc m) = v /\ sig_at h' (m_displ m) = u /\
    (match ty with T_accel => m_accel m = loc | T_veloc => m_veloc m = loc | _ => m_displ m = loc end) /\
    m_dt m = dt /\ m_npts m = length (sig_at h loc) /\
    max_abs (vals a) = Ok (m_pga m) /\ max_abs (vals v) = Ok (m_pgv m) /\ max_abs (vals u) = Ok (m_pgd m) /\
    calc_Arias a = Ok (m_arias m) /\
    (exists v' u', num_int a = Ok (v', u') /\ m_rms m = (rms (vals a), rms (vals v'), rms (vals u'))) /\
    (forall l, (l < length h)%nat -> sig_at h' l = sig_at h l) /\
    m_time m = linspace 0 (dt * INR (length (sig_at h loc) - 1)) (length (sig_at h loc)) /\
    length h' = S (S (length h)).
Proof.
  intros Hl Hn Hty. set (d := sig_at h loc) in *.
  destruct (histories_exist ty d Hn) as (a & v & u & HH & La & Lv & Lu & Ta & Tv & Tu).
  destruct (max_abs_ok (vals a)) as (pa & Epa & _); [apply vals_ne; lia|].
  destruct (max_abs_ok (vals v)) as (pv & Epv & _); [apply vals_ne; lia|].
  destruct (max_abs_ok (vals u)) as (pu & Epu & _); [apply vals_ne; lia|].
  destruct (calc_Arias_spec a ltac:(lia)) as (ar & Ear & _).
  destruct (num_int_spec a ltac:(lia)) as (v' & u' & Ei & _).
  assert (Hold : forall x y l, (l < length h)%nat -> sig_at (h ++ [x; y]) l = sig_at h l).
  { intros x y l Hll. unfold sig_at. rewrite app_nth1 by auto. reflexivity. }
  assert (Hnew0 : forall x y, sig_at (h ++ [x; y]) (length h) = x).
  { intros. unfold sig_at. rewrite app_nth2, Nat.sub_diag by lia. reflexivity. }
  assert (Hnew1 : forall x y, sig_at (h ++ [x; y]) (S (length h)) = y).
  { intros. unfold sig_at. rewrite app_nth2 by lia. replace (S (length h) - length h)%nat with 1%nat by lia. reflexivity. }
  assert (HL2 : forall x y : signal, length (h ++ [x; y]) = S (S (length h))) by (intros; rewrite app_length; cbn; lia).
  unfold gm_finish. fold d. destruct ty; try congruence; cbn [histories] in HH.
  - destruct HH as [-> E]. rewrite E. cbn [bind fst snd]. rewrite Epa, Epv, Epu, Ear. cbn [bind].
    rewrite Ei. cbn [bind fst snd]. eexists _, _, d, v, u. split; [reflexivity|]. cbn.
    rewrite (Hold _ _ loc), Hnew0, Hnew1 by auto. rewrite E in Ei. injection Ei as <- <-.
    repeat split; auto. exists v, u. auto.
  - destruct HH as (E1 & -> & w & E2). rewrite E1. cbn [bind]. rewrite E2. cbn [bind fst snd].
    rewrite Epa, Epv, Epu, Ear. cbn [bind].
    rewrite Ei. cbn [bind fst snd]. eexists _, _, a, d, u. split; [reflexivity|]. cbn.
    rewrite (Hold _ _ loc), Hnew0, Hnew1 by auto. repeat split; eauto. all: exists v', u'; auto.
  - destruct HH as (E1 & E2 & ->). rewrite E1. cbn [bind]. rewrite E2. cbn [bind fst snd].
    rewrite Epa, Epv, Epu, Ear. cbn [bind].
    rewrite Ei. cbn [bind fst snd]. eexists _, _, a, v, d. split; [reflexivity|]. cbn.
    rewrite (Hold _ _ loc), Hnew0, Hnew1 by auto. repeat split; eauto. all: exists v', u'; auto.
Qed.

Lemma gm_init_eq h loc u ty : (2 <= length (sig_at h loc))%nat -> acceptable u ty ->
  gm_init h loc u ty = gm_finish (set_nth loc (conv u (sig_at h loc)) h) loc (step_of (sig_at h loc)) ty.
Proof.
  intros Hn (Hu & Ht & Hg). unfold gm_init. destruct (Nat.eqb_spec (length (sig_at h loc)) 1); [lia|].
  rewrite first_step_ok by auto. unfold gm_checked, conv.
  destruct u, ty; try congruence; cbn [is_g andb negb]; try reflexivity;
    exfalso; (discriminate (Hg (or_introl eq_refl)) || discriminate (Hg (or_intror eq_refl))).
Qed.

(** ** Python int and slices *)
Lemma py_int_nonneg x : 0 <= x -> (0 <= py_int x)%Z /\ IZR (py_int x) <= x < IZR (py_int x) + 1.
Proof.
  intros H. unfold py_int. rewrite (proj2 (Rleb_true 0 x) H). pose proof (Int_part_spec x).
  split; [|lra]. assert (-1 < Int_part x)%Z by (apply lt_IZR; lra). lia.
Qed.
Lemma py_int_neg x : x < 0 -> (py_int x <= 0)%Z /\ IZR (py_int x) - 1 < x <= IZR (py_int x).
Proof.
  intros H. unfold py_int. rewrite (proj2 (Rleb_false 0 x) H). pose proof (Int_part_spec (- x)).
  rewrite opp_IZR. split; [|lra]. assert (-1 < Int_part (- x))%Z by (apply lt_IZR; lra). lia.
Qed.

Lemma pyslice_pos {A} (l : list A) a b : (0 <= a)%Z -> (0 <= b)%Z ->
  pyslice a b l = firstn (Nat.min (Z.to_nat b) (length l) - Nat.min (Z.to_nat a) (length l))
                    (skipn (Nat.min (Z.to_nat a) (length l)) l).
Proof.
  intros Ha Hb. unfold pyslice, clamp_index, slice.
  destruct (Z.ltb_spec a 0); [lia|]. destruct (Z.ltb_spec b 0); [lia|]. reflexivity.
Qed.

(** ** Arias bounds for general thresholds *)
Lemma arias_bounds_spec s r lo hi : (2 <= length s)%nat -> 0 < step_of s -> calc_Arias s = Ok r -> 0 < ia_peak r ->
  0 < lo -> lo < hi -> hi <= 1 ->
  exists i j, first_at_least (map (fun x => x / ia_peak r) (ia r)) lo i /\
    first_at_least (map (fun x => x / ia_peak r) (ia r)) hi j /\ (1 <= i <= j)%nat /\
    arias_time_bounds (times s) (ia_norm r) lo hi = Ok (nth i (times s) 0, nth j (times s) 0).
Proof.
  intros Hn Hdt Er Hp Hlo Hlh Hhi.
  destruct (calc_Arias_spec s Hn) as (r' & Er' & Li & Hnth & Epk & Hnz & _ & _).
  rewrite Er in Er'. injection Er' as <-. rewrite <- Epk in Hnz. specialize (Hnz ltac:(lra)).
  set (xs := map (fun x => x / ia_peak r) (ia r)) in *.
  assert (Lxs : length xs = length s) by (unfold xs; rewrite map_length; exact Li).
  assert (Hx : forall k, (k < length s)%nat -> nth k xs 0 = nth k (ia r) 0 / ia_peak r).
  { intros k Hk. unfold xs. apply (nth_map0 (fun x => x / ia_peak r)). lia. }
  assert (Hmono : nondecr xs).
  { intros a b Hab. rewrite Lxs in Hab. rewrite !Hx by lia.
    apply Rmult_le_compat_r; [apply Rlt_le, Rinv_0_lt_compat; lra|]. rewrite !Hnth by lia.
    apply Rmult_le_compat_l; [apply Rmult_le_pos; [apply Rlt_le, arias_const_pos|lra]|].
    apply energy_firstn_mono. lia. }
  assert (H0 : nth 0 xs 0 = 0).
  { rewrite Hx, Hnth by lia. unfold energy; cbn. unfold Rdiv. lra. }
  assert (H1 : nth (length s - 1) xs 0 = 1).
  { rewrite Hx, Hnth by lia. rewrite <- Epk. field. lra. }
  assert (Hin1 : In 1 xs) by (rewrite <- H1; apply nth_In; lia).
  destruct (first_at_least_exists xs lo) as (i & Hi1 & Hi2 & Hi3); [exists 1; split; [auto|lra]|].
  destruct (first_at_least_exists xs hi) as (j & Hj1 & Hj2 & Hj3); [exists 1; split; [auto|lra]|].
  exists i, j. split; [split; auto|]. split; [split; auto|]. split.
  - split; [destruct i; [rewrite H0 in Hi2; lra|lia]|].
    destruct (Nat.le_gt_cases i j) as [|Hgt]; [auto|]. specialize (Hi3 j Hgt). lra.
  - unfold arias_time_bounds. rewrite Hnz. rewrite (proj2 (Rleb_false hi lo)) by lra.
    rewrite times_length, map_length, Lxs, Nat.eqb_refl. cbn [negb].
    assert (Htn : times s <> []) by (apply ne_of_len; rewrite times_length; auto).
    rewrite (last_res_ok _ 0 Htn). cbn [bind].
    rewrite (get_ok _ 0 (Fin 0)) by (rewrite map_length; lia). cbn [bind].
    rewrite bounds_scan_split, map_nth, H0.
    rewrite (scan1_first _ _ 0 hi _ j), (scan1_first _ _ 0 lo _ i); auto; try lra;
        rewrite ?times_length, ?Lxs; auto.
Qed.

(** ** Integration and differentiation undo each other *)
Lemma rsum_firstn_S (l : list R) k : (k < length l)%nat -> rsum (firstn (S k) l) = rsum (firstn k l) + nth k l 0.
Proof.
  revert k; induction l as [|x l IH]; intros k Hk; [cbn in Hk; lia|].
  destruct k as [|k]; [cbn; lra|]. rewrite !firstn_cons. specialize (IH k ltac:(cbn in Hk; lia)).
  unfold rsum in *. cbn [fold_right nth]. rewrite IH. lra.
Qed.

Lemma rsum_firstn_1 (l : list R) : (0 < length l)%nat -> rsum (firstn 1 l) = nth 0 l 0.
Proof. destruct l; cbn; [lia|lra]. Qed.

Lemma evenly_same s s' : times s = times s' -> length s = length s' -> evenly_spaced s -> evenly_spaced s'.
Proof. intros E L H k Hk. unfold step_of. rewrite <- E. apply H. lia. Qed.

Lemma step_same s s' : times s = times s' -> step_of s = step_of s'.
Proof. intros E. unfold step_of. rewrite E. reflexivity. Qed.

Lemma int_after_diff s a v u : (2 <= length s)%nat -> evenly_spaced s -> step_of s <> 0 ->
  num_diff s = Ok a -> num_int a = Ok (v, u) ->
  forall k, (k < length s)%nat -> nth k (vals v) 0 = nth k (vals s) 0 - nth 0 (vals s) 0.
Proof.
  intros Hn He Hd Ea Ev. destruct (num_diff_spec s (ne_of_len _ Hn)) as (a' & Ea' & Ta & La & H0 & HS).
  rewrite Ea in Ea'. injection Ea' as <-.
  destruct (num_int_spec a ltac:(lia)) as (v' & u' & Ev' & _ & _ & _ & _ & Hv & _).
  rewrite Ev in Ev'. injection Ev' as <- <-. rewrite La in Hv. rewrite (step_same a s Ta) in Hv.
  induction k as [|k IH]; intros Hk.
  - rewrite Hv by auto. rewrite rsum_firstn_1, H0 by (rewrite vals_length; lia). lra.
  - rewrite Hv by auto. rewrite rsum_firstn_S, HS by (rewrite ?vals_length; lia).
    specialize (IH ltac:(lia)). rewrite Hv in IH by lia. rewrite Rmult_plus_distr_l, IH, He by auto. field. auto.
Qed.

Lemma diff_after_sum s v w : (2 <= length s)%nat -> evenly_spaced s -> step_of s <> 0 ->
  times v = times s -> length v = length s ->
  (forall k, (k < length s)%nat -> nth k (vals v) 0 = step_of s * rsum (firstn (S k) (vals s))) ->
  num_diff v = Ok w ->
  nth 0 (vals w) 0 = 0 /\ forall k, (1 <= k < length s)%nat -> nth k (vals w) 0 = nth k (vals s) 0.
Proof.
  intros Hn He Hd Tv Lv Hv Ew. destruct (num_diff_spec v) as (w' & Ew' & Tw & Lw & H0 & HS); [apply ne_of_len; lia|].
  rewrite Ew in Ew'. injection Ew' as <-. split; [exact H0|].
  intros [|k] Hk; [lia|]. rewrite HS by lia. rewrite Tv, He by lia. rewrite !Hv by lia.
  rewrite (rsum_firstn_S _ (S k)) by (rewrite vals_length; lia). field. auto.
Qed.

(** Linear combinations of two records on the same time axis. *)
Definition lincomb (c d : R) (s1 s2 s : signal) : Prop :=
  times s1 = times s /\ times s2 = times s /\ length s1 = length s /\ length s2 = length s /\
    forall k, (k < length s)%nat -> nth k (vals s) 0 = c * nth k (vals s1) 0 + d * nth k (vals s2) 0.

Lemma rsum_firstn_lincomb c d (l1 l2 l : list R) :
  length l1 = length l -> length l2 = length l ->
  (forall k, (k < length l)%nat -> nth k l 0 = c * nth k l1 0 + d * nth k l2 0) ->
  forall k, rsum (firstn k l) = c * rsum (firstn k l1) + d * rsum (firstn k l2).
Proof.
  intros L1 L2 H k. revert l1 l2 l L1 L2 H.
  induction k as [|k IH]; intros [|x1 l1] [|x2 l2] [|x l] L1 L2 H; cbn in L1, L2; try discriminate; cbn; try lra.
  rewrite (IH l1 l2 l) by (try lia; intros j Hj; apply (H (S j)); cbn; lia).
  pose proof (H 0%nat ltac:(cbn; lia)) as E. cbn in E. lra.
Qed.
