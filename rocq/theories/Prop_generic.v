(** Theorems about helper_generic.py: C07, C13, C14, C36, C37, C65. *)
From Coq Require Import Reals List Bool ZArith Lia Lra.
From Verif Require Import Base M_generic P_generic.
Import ListNotations.
Open Scope R_scope.

(** ** C07: the Vs-profile validator accepts exactly the documented arrays.
    [valid_Vs_array] (P_generic.v) is the row-by-row specification. *)
Theorem C07_Vs_validator_sound_and_complete :
  forall o, match o with PArr _ a => arr_wf a | _ => True end ->
    (check_Vs_profile_format o = Ok tt <-> valid_Vs_array o).
Proof.
  intros o H; split.
  - apply check_Vs_profile_format_sound; exact H.
  - apply check_Vs_profile_format_complete.
Qed.

(** A valid 5-column profile, an invalid one (non-integer material) and a NaN. *)
Example C07_accepts : check_Vs_profile_format
  (PArr true (A2 5 [[Fin 10; Fin 200; Fin (2/100); Fin 1900; Fin 1];
                    [Fin 0; Fin 800; Fin (1/100); Fin 2200; Fin 0]])) = Ok tt.
Proof.
  apply C07_Vs_validator_sound_and_complete; [repeat constructor|].
  exists true, [[Fin 10; Fin 200; Fin (2/100); Fin 1900; Fin 1]],
    [Fin 0; Fin 800; Fin (1/100); Fin 2200; Fin 0].
  split; [reflexivity|]. split; [constructor; [|constructor]|].
  - do 3 eexists. split; [reflexivity|]. split; [lra|]. split; [lra|].
    exists (2/100), 1900, 1%Z. repeat split; (lra || lia).
  - do 3 eexists. split; [reflexivity|]. split; [lra|]. split; [lra|].
    exists (1/100), 2200, 0%Z. repeat split; (lra || lia).
Qed.

Example C07_rejects_nan : check_Vs_profile_format
  (PArr true (A2 2 [[Fin 10; NaN]; [Fin 0; Fin 800]])) = Err ValueError.
Proof. reflexivity. Qed.

(** An array with no row is not rejected by a validation error but by an
    out-of-range access. *)
Example C07_empty_array : check_Vs_profile_format (PArr true (A2 2 [])) = Err IndexError.
Proof. reflexivity. Qed.

(** ** C13: number validity flag and length normalisation. *)
Theorem C13_number_flag : forall numeric a z,
  check_numbers_valid (PArr numeric a) = Ok z <-> flag_spec numeric (cells a) z.
Proof. exact check_numbers_valid_spec. Qed.

Theorem C13_number_flag_zero : forall numeric a,
  check_numbers_valid (PArr numeric a) = Ok 0%Z <->
  numeric = true /\ Forall (fun x => exists r, x = Fin r /\ 0 <= r) (cells a).
Proof.
  intros. rewrite C13_number_flag. split.
  - intros H; inversion H; auto.
  - intros [-> H]; constructor 4; auto.
Qed.

Example C13_flag_priority :
  check_numbers_valid (PArr true (A1 [Fin (-1); NaN; PInf])) = Ok (-2)%Z.
Proof. reflexivity. Qed.

Theorem C13_length_normalisation : forall o n l,
  check_length_or_extend_to_array o n = Ok l <->
  (exists x, o = PNum x /\ l = repeat x n) \/ (exists b, o = PArr b (A1 l) /\ length l = n).
Proof. exact check_length_or_extend_spec. Qed.

Theorem C13_length_is_requested : forall o n l,
  check_length_or_extend_to_array o n = Ok l -> length l = n.
Proof.
  intros o n l H. apply C13_length_normalisation in H as [(x & _ & ->)|(b & _ & H)]; auto.
  apply repeat_length.
Qed.

Example C13_extend : check_length_or_extend_to_array (PNum (Fin 3)) 2 = Ok [Fin 3; Fin 3].
Proof. reflexivity. Qed.

Theorem C13_two_column_format : forall o nonneg atleast,
  check_two_column_format o nonneg atleast = Ok tt <->
  exists c rows, o = PArr true (A2 c rows) /\
    (if atleast : bool then (2 <= c)%nat else c = 2%nat) /\
    Forall (Forall (fun x => exists r, x = Fin r)) rows /\
    (nonneg = true -> Forall (Forall (fun x => exists r, x = Fin r /\ 0 <= r)) rows).
Proof. exact check_two_column_format_spec. Qed.

(** ** C14: closest index. *)
Theorem C14_closest_index : forall array value, array <> [] ->
  exists i x, find_closest_index array value = (Some i, Some x) /\
    nth_error array i = Some x /\
    (forall y, In y array -> Rabs (x - value) <= Rabs (y - value)) /\
    (forall j y, (j < i)%nat -> nth_error array j = Some y -> Rabs (x - value) < Rabs (y - value)).
Proof. exact find_closest_index_correct. Qed.

Theorem C14_closest_index_empty : forall value, find_closest_index [] value = (None, None).
Proof. reflexivity. Qed.

(** Two equally close elements: the first one wins. *)
Example C14_tie : find_closest_index [1; 3] 2 = (Some 0%nat, Some 1).
Proof.
  cbn. replace (Rabs (1 - 2)) with 1 by (unfold Rabs; destruct Rcase_abs; lra).
  replace (Rabs (3 - 2)) with 1 by (unfold Rabs; destruct Rcase_abs; lra).
  rdec. reflexivity.
Qed.

(** ** C36: merging and extracting curves. *)
Theorem C36_merge_then_extract : forall nonneg n G X, (1 <= n)%nat -> length G = length X ->
  Forall (fun r => length r = (4 * n)%nat) G -> Forall (fun r => length r = (4 * n)%nat) X ->
  Forall (Forall (if nonneg : bool then fin_nonneg else fin)) G ->
  Forall (Forall (if nonneg : bool then fin_nonneg else fin)) X ->
  exists M gl dl gl' dl',
    merge_curve_matrices (PArr true (A2 (4 * n) G)) (PArr true (A2 (4 * n) X)) = Ok ((4 * n)%nat, M) /\
    extract_from_curve_format (PArr true (A2 (4 * n) M)) nonneg = Ok (gl, dl) /\
    extract_from_curve_format (PArr true (A2 (4 * n) G)) nonneg = Ok (gl, dl') /\
    extract_from_curve_format (PArr true (A2 (4 * n) X)) nonneg = Ok (gl', dl) /\
    length gl = n /\ length dl = n.
Proof. exact merge_extract_roundtrip. Qed.

(** The k-th extracted curve is made of columns 4k, 4k+1 (G/Gmax) and 4k+2, 4k+3 (damping). *)
Theorem C36_extract_layout : forall nonneg n rows,
  Forall (fun r => length r = (4 * n)%nat) rows ->
  Forall (Forall (if nonneg : bool then fin_nonneg else fin)) rows ->
  exists gl dl, extract_from_curve_format (PArr true (A2 (4 * n) rows)) nonneg = Ok (gl, dl) /\
    length gl = n /\ length dl = n /\
    forall k i r, (k < n)%nat -> nth_error rows i = Some r ->
      nth i (nth k gl []) [] = [nth (4 * k) r NaN; nth (4 * k + 1) r NaN] /\
      nth i (nth k dl []) [] = [nth (4 * k + 2) r NaN; nth (4 * k + 3) r NaN].
Proof.
  intros nonneg n rows HL H. rewrite extract_ok by exact H.
  do 2 eexists. split; [reflexivity|]. rewrite !map_length, seq_length.
  split; [reflexivity|]. split; [reflexivity|].
  intros k i r Hk Hr.
  assert (Lr : length r = (4 * n)%nat).
  { rewrite Forall_forall in HL. apply HL. eapply nth_error_In; eauto. }
  apply (nth_error_nth _ _ []) in Hr as Hr'.
  assert (E : forall (f : nat -> list (list num)), nth k (map f (seq 0 n)) [] = f k).
  { intros f. rewrite (nth_indep _ [] (f 0%nat)) by (rewrite map_length, seq_length; auto).
    rewrite map_nth, seq_nth by auto. reflexivity. }
  rewrite !E, !cols_nth, Hr'.
  split; apply (list_ext NaN); rewrite ?slice_length, ?Lr; cbn [length];
    try lia; intros j Hj; rewrite slice_nth by lia;
    (destruct j as [|[|j]]; [| |lia]); cbn [nth]; f_equal; lia.
Qed.

Theorem C36_bad_column_count : forall numeric nonneg c rows, (c mod 4 <> 0)%nat ->
  extract_from_curve_format (PArr numeric (A2 c rows)) nonneg = Err ValueError.
Proof.
  intros numeric nonneg c rows H. unfold extract_from_curve_format.
  rewrite (proj2 (Nat.eqb_neq _ _) H). reflexivity.
Qed.

Theorem C36_merge_shape_mismatch : forall b1 b2 c1 c2 G X,
  (exists M, merge_curve_matrices (PArr b1 (A2 c1 G)) (PArr b2 (A2 c2 X)) = Ok M) <->
  (c1 mod 4 = 0 /\ c1 = c2 /\ length G = length X)%nat.
Proof.
  intros. unfold merge_curve_matrices. cbn [assert_2D_numpy_array bind].
  destruct (Nat.eqb_spec (c1 mod 4) 0), (Nat.eqb_spec (c2 mod 4) 0),
    (Nat.eqb_spec c1 c2), (Nat.eqb_spec (length G) (length X)); cbn [negb];
    split; intros HH; try (destruct HH; discriminate); try (decompose [and] HH; subst; congruence);
    repeat split; auto; eexists; reflexivity.
Qed.

Lemma skipn_plus2 {A} a (l : list A) : skipn 2 (skipn a l) = skipn (a + 2) l.
Proof. revert l; induction a as [|a IH]; intros l; [reflexivity|]. destruct l as [|x l]; [reflexivity|]. cbn [skipn Nat.add]. apply IH. Qed.

(** Extraction succeeds exactly when every cell is acceptable: finite, and
    non-negative when that is required. *)
Theorem C36_extract_accepts_iff : forall numeric nonneg n rows, (1 <= n)%nat -> Forall (fun r => length r = (4 * n)%nat) rows ->
  ((exists out, extract_from_curve_format (PArr numeric (A2 (4 * n) rows)) nonneg = Ok out) <->
   numeric = true /\ Forall (Forall (if nonneg : bool then fin_nonneg else fin)) rows).
Proof.
  intros numeric nonneg n rows Hn HL. split.
  - intros [out E]. cbn [extract_from_curve_format] in E.
    replace ((4 * n) mod 4)%nat with 0%nat in E by (rewrite Nat.mul_comm, Nat.mod_mul; lia).
    rewrite Nat.eqb_refl in E. cbn [negb] in E.
    replace (4 * n / 4)%nat with n in E by (rewrite Nat.mul_comm, Nat.div_mul; lia).
    assert (Loop : forall m j gd, extract_loop numeric nonneg rows j m = Ok gd ->
      ((1 <= m)%nat -> numeric = true) /\ forall k, (j <= k < j + m)%nat -> Forall (Forall (if nonneg then fin_nonneg else fin)) (cols (k * 4) (k * 4 + 4) rows)).
    { induction m as [|m IH]; intros j gd Ej; [split; lia|]. cbn [extract_loop] in Ej.
      match type of Ej with context [check_two_column_format ?o nonneg false] => destruct (check_two_column_format o nonneg false) as [[]|] eqn:E1; [|discriminate Ej] end.
      cbn [bind] in Ej. match type of Ej with context [check_two_column_format ?o nonneg false] => destruct (check_two_column_format o nonneg false) as [[]|] eqn:E2; [|discriminate Ej] end.
      cbn [bind] in Ej. destruct (extract_loop numeric nonneg rows (S j) m) as [gd'|] eqn:E3; [|discriminate].
      apply check_two_column_format_spec in E1 as (c1 & r1 & Q1 & _ & F1 & G1). apply check_two_column_format_spec in E2 as (c2 & r2 & Q2 & _ & F2 & G2).
      injection Q1 as -> <- <-. injection Q2 as <- <-. split; [reflexivity|]. intros k Hk.
      destruct (Nat.eq_dec k j) as [->|Hne]; [|apply (proj2 (IH (S j) gd' E3)); lia].
      assert (H1 : Forall (Forall (if nonneg then fin_nonneg else fin)) (cols (j * 4 + 0) (j * 4 + 2) rows)) by (destruct nonneg; auto).
      assert (H2 : Forall (Forall (if nonneg then fin_nonneg else fin)) (cols (j * 4 + 2) (j * 4 + 4) rows)) by (destruct nonneg; auto).
      unfold cols in *. rewrite Forall_map in *. rewrite Forall_forall in *. intros r Hr. specialize (H1 r Hr). specialize (H2 r Hr).
      replace (slice (j * 4) (j * 4 + 4) r) with (slice (j * 4 + 0) (j * 4 + 2) r ++ slice (j * 4 + 2) (j * 4 + 4) r); [apply Forall_app; auto|].
      unfold slice. rewrite Nat.add_0_r. replace (j * 4 + 2 - j * 4)%nat with 2%nat by lia. replace (j * 4 + 4 - (j * 4 + 2))%nat with 2%nat by lia. replace (j * 4 + 4 - j * 4)%nat with 4%nat by lia.
      replace (skipn (j * 4 + 2) r) with (skipn 2 (skipn (j * 4) r)) by apply skipn_plus2.
      destruct (skipn (j * 4) r) as [|x1 [|x2 [|x3 [|x4 t]]]]; reflexivity. }
    destruct (Loop n 0%nat out E) as [Hnum Hk]. split; [apply Hnum; lia|].
    apply Forall_forall. intros r Hr. apply Forall_forall. intros x Hx. apply (In_nth _ _ NaN) in Hx as (i & Hi & <-).
    assert (Lr : length r = (4 * n)%nat) by (rewrite Forall_forall in HL; apply HL, Hr). rewrite Lr in Hi.
    assert (Hd : (i / 4 < n)%nat) by (apply Nat.div_lt_upper_bound; lia).
    specialize (Hk (i / 4)%nat ltac:(lia)). unfold cols in Hk. rewrite Forall_map, Forall_forall in Hk. specialize (Hk r Hr). rewrite Forall_forall in Hk.
    apply Hk. pose proof (Nat.div_mod i 4 ltac:(lia)) as Hdm. pose proof (Nat.mod_upper_bound i 4 ltac:(lia)) as Hmb.
    replace (nth i r NaN) with (nth (i mod 4) (slice (i / 4 * 4) (i / 4 * 4 + 4) r) NaN).
    + apply nth_In. rewrite slice_length. lia.
    + rewrite slice_nth by lia. f_equal. lia.
  - intros [-> H]. rewrite extract_ok by exact H. eexists. reflexivity.
Qed.

Example C36_instance : exists M,
  merge_curve_matrices (PArr true (A2 4 [[Fin 1; Fin 2; Fin 3; Fin 4]]))
                       (PArr true (A2 4 [[Fin 5; Fin 6; Fin 7; Fin 8]])) = Ok (4%nat, M) /\
  M = [[Fin 1; Fin 2; Fin 7; Fin 8]].
Proof. eexists; split; reflexivity. Qed.

(** ** C37: parameter matrices. *)
Theorem C37_param_columns_roundtrip : forall b c rows, Forall (fun r => length r = c) rows ->
  exists l, extract_from_param_format (PArr b (A2 c rows)) = Ok l /\ length l = c /\
    Forall (fun v => length v = length rows) l /\ stack_columns (length rows) l = rows.
Proof. exact param_roundtrip. Qed.

Theorem C37_only_2D : forall o l, extract_from_param_format o = Ok l ->
  exists b c rows, o = PArr b (A2 c rows).
Proof. intros o l H. destruct o as [|b [| |c rows|]|]; try discriminate. eauto. Qed.

Example C37_instance :
  extract_from_param_format (PArr true (A2 2 [[Fin 1; Fin 2]; [Fin 3; Fin 4]]))
  = Ok [[Fin 1; Fin 3]; [Fin 2; Fin 4]].
Proof. reflexivity. Qed.

(** ** C65: two-column loader. *)
Theorem C65_one_column : forall vals d, d <> 0 -> (2 <= length vals)%nat ->
  read_two_column_stuff (D1 vals) (Some d) =
    Ok (combine (map (fun i => INR (S i) * d) (seq 0 (length vals))) vals, d).
Proof. intros. apply one_column_spec; auto. Qed.

(** A single sample, or a 2-D array with a single row, is never accepted
    (index error when a step is given, value error otherwise). *)
Theorem C65_single_row_rejected : forall c r delta, (1 <= c)%nat ->
  read_two_column_stuff (D2 c [r]) delta =
    match delta with None => Err ValueError | Some _ => Err IndexError end.
Proof.
  intros c r delta Hc. cbn [read_two_column_stuff length].
  replace (Nat.min 1 c) with 1%nat by lia. cbn [Nat.eqb].
  destruct delta; [apply one_column_short; lia|reflexivity].
Qed.

(** Two columns: data unchanged, the step is read off the first two rows and the
    [delta] argument is ignored (uniformity of the axis is not checked). *)
Theorem C65_two_columns : forall t0 t1 y0 y1 rows delta,
  read_two_column_stuff (D2 2 ([t0; y0] :: [t1; y1] :: rows)) delta =
    Ok ((t0, y0) :: (t1, y1) :: map (fun r => (nth 0 r 0, nth 1 r 0)) rows, t1 - t0).
Proof. reflexivity. Qed.

Theorem C65_delta_required : forall l, read_two_column_stuff (D1 l) None = Err ValueError.
Proof. reflexivity. Qed.

Example C65_instance : read_two_column_stuff (D1 [5; 7]) (Some 2) = Ok ([(2, 5); (4, 7)], 2).
Proof. rewrite C65_one_column by (cbn; lra || lia). cbn. repeat f_equal; lra. Qed.

Lemma nth_map_g {A B} (f : A -> B) d0 d l k : (k < length l)%nat -> nth k (map f l) d = f (nth k l d0).
Proof. intros H. rewrite (nth_indep _ d (f d0)) by (rewrite map_length; exact H). apply map_nth. Qed.

(** ** C75 mean absolute error *)
Lemma np_sub_nth a b : length a = length b -> exists e, np_sub a b = Ok e /\ length e = length a /\
  forall k, (k < length a)%nat -> nth k e 0 = nth k a 0 - nth k b 0.
Proof.
  intros HL. unfold np_sub. rewrite HL, Nat.eqb_refl. eexists. split; [reflexivity|]. rewrite map_length, combine_length. split; [lia|].
  intros k Hk. rewrite (nth_indep _ 0 ((fun p => fst p - snd p) (0, 0))) by (rewrite map_length, combine_length; lia).
  rewrite (map_nth (fun p => fst p - snd p)), combine_nth by exact HL. reflexivity.
Qed.

(** The mean over the samples of the distances. *)
Definition mean_dist (a b : list R) : R := rsum (map (fun k => Rabs (nth k a 0 - nth k b 0)) (seq 0 (length a))) / INR (length a).

Theorem C75_value : forall a b, a <> [] -> length a = length b -> mean_absolute_error a b = Ok (Fin (mean_dist a b)).
Proof.
  intros a b Ha HL. destruct (np_sub_nth a b HL) as (e & E & Le & He). unfold mean_absolute_error. rewrite E. cbn [bind].
  destruct e as [|x e]; [destruct a; [congruence|discriminate Le]|]. rewrite Le. unfold mean_dist. do 3 f_equal. f_equal.
  apply (list_ext 0); rewrite !map_length, ?seq_length; [exact Le|]. intros k Hk.
  rewrite (nth_map_g Rabs 0) by exact Hk. rewrite He by lia.
  rewrite (nth_map_g (fun k => Rabs (nth k a 0 - nth k b 0)) 0%nat) by (rewrite seq_length; lia). rewrite seq_nth by lia. reflexivity.
Qed.

Lemma rsum_le_map {A} (f g : A -> R) l : (forall x, In x l -> f x <= g x) -> rsum (map f l) <= rsum (map g l).
Proof. induction l as [|x l IH]; intros H; cbn; [lra|]. pose proof (H x (or_introl eq_refl)). specialize (IH (fun y Hy => H y (or_intror Hy))). lra. Qed.

Theorem C75_metric : forall a b c, a <> [] -> length a = length b -> length b = length c ->
  0 <= mean_dist a b /\ (mean_dist a b = 0 <-> a = b) /\ mean_dist a b = mean_dist b a /\
  mean_dist a c <= mean_dist a b + mean_dist b c /\
  (forall M, (forall k, (k < length a)%nat -> Rabs (nth k a 0 - nth k b 0) <= M) -> mean_dist a b <= M).
Proof.
  intros a b c Ha L1 L2. assert (HN : 0 < INR (length a)) by (apply lt_0_INR; destruct a; [congruence|cbn; lia]).
  assert (Hi : 0 < / INR (length a)) by (apply Rinv_0_lt_compat, HN).
  assert (Hnn : forall l, 0 <= rsum (map (fun k => Rabs (nth k a 0 - nth k b 0)) l)).
  { intros l. induction l as [|k l IH]; cbn; [lra|]. pose proof (Rabs_pos (nth k a 0 - nth k b 0)). lra. }
  unfold mean_dist. rewrite <- L1. split; [apply Rmult_le_pos; [apply Hnn|lra]|]. split; [|split; [|split]].
  - split; intros H.
    + assert (S0 : rsum (map (fun k => Rabs (nth k a 0 - nth k b 0)) (seq 0 (length a))) = 0).
      { apply Rmult_integral in H. destruct H; [assumption|lra]. }
      assert (Hz : forall l, rsum (map (fun k => Rabs (nth k a 0 - nth k b 0)) l) = 0 -> forall k, In k l -> nth k a 0 = nth k b 0).
      { induction l as [|k l IH]; cbn; intros E j Hj; [destruct Hj|]. pose proof (Rabs_pos (nth k a 0 - nth k b 0)). pose proof (Hnn l).
        destruct Hj as [->|Hj]; [|apply IH; [lra|exact Hj]]. assert (Z : Rabs (nth j a 0 - nth j b 0) = 0) by lra.
        destruct (Req_dec (nth j a 0 - nth j b 0) 0) as [E0|N0]; [lra|]. apply Rabs_no_R0 in N0. contradiction. }
      apply (list_ext 0); [exact L1|]. intros k Hk. apply (Hz _ S0). apply in_seq. lia.
    + subst b. replace (rsum _) with 0; [unfold Rdiv; ring|]. symmetry.
      induction (seq 0 (length a)) as [|k l IH]; cbn; [reflexivity|]. rewrite IH, Rminus_diag_eq, Rabs_R0 by reflexivity. ring.
  - do 2 f_equal. apply map_ext. intros k. apply Rabs_minus_sym.
  - unfold Rdiv. rewrite <- Rmult_plus_distr_r. apply Rmult_le_compat_r; [lra|].
    assert (P : forall l, rsum (map (fun k => Rabs (nth k a 0 - nth k c 0)) l) <=
      rsum (map (fun k => Rabs (nth k a 0 - nth k b 0)) l) + rsum (map (fun k => Rabs (nth k b 0 - nth k c 0)) l)).
    { induction l as [|k l IH]; cbn; [lra|]. pose proof (Rabs_triang (nth k a 0 - nth k b 0) (nth k b 0 - nth k c 0)) as T.
      replace (nth k a 0 - nth k b 0 + (nth k b 0 - nth k c 0)) with (nth k a 0 - nth k c 0) in T by ring. lra. }
    apply P.
  - intros M HM. apply Rmult_le_reg_r with (INR (length a)); [exact HN|]. unfold Rdiv. rewrite Rmult_assoc, Rinv_l, Rmult_1_r by lra.
    apply Rle_trans with (rsum (map (fun _ : nat => M) (seq 0 (length a)))).
    + apply rsum_le_map. intros k Hk. apply in_seq in Hk. apply HM. lia.
    + assert (K : forall l : list nat, rsum (map (fun _ => M) l) = M * INR (length l)).
      { induction l as [|k l IH]; cbn [map rsum length]; [cbn; ring|]. rewrite IH, S_INR. ring. }
      rewrite K, seq_length. lra.
Qed.

Theorem C75_length_mismatch : forall a b, length a <> length b -> length a <> 1%nat -> length b <> 1%nat -> mean_absolute_error a b = Err ValueError.
Proof.
  intros a b H Ha Hb. unfold mean_absolute_error, np_sub. rewrite (proj2 (Nat.eqb_neq _ _) H).
  destruct a as [|x [|x' a]], b as [|y [|y' b]]; cbn in *; try congruence; reflexivity.
Qed.

Example C75_instance : mean_absolute_error [1; 2] [3; 2] = Ok (Fin 1).
Proof.
  rewrite C75_value by (discriminate || reflexivity). unfold mean_dist. cbn. replace (1 - 3) with (-2) by lra. replace (2 - 2) with 0 by lra.
  rewrite Rabs_R0, Rabs_left by lra. do 2 f_equal. field.
Qed.
