(** Sharper statements about single steps: window weights (C35), filter sections
    (C33), the data files read (C29), the files removed (C59), the maxima of a
    non-linear run (C87). *)
From Coq Require Import Reals List Bool ZArith Ascii String Lia Lra Psatz.
From Verif Require Import Base M_generic M_profile M_motion M_vs_profile M_signal M_sitefactors M_files M_results P_generic P_motion P_files Prop_files Prop_results.
Import ListNotations.
Open Scope R_scope.
Open Scope string_scope.
Open Scope list_scope.

(** ** C35: the window functions *)

(** Weight at the edges. *)
Definition edge (w : window) : R := match w with Flat => 1 | Hamming => 8 / 100 | _ => 0 end.

Lemma angle_mirror M n : (2 <= M)%nat -> (n < M)%nat -> forall q, q = 1%Z \/ q = 2%Z ->
  cos (IZR q * 2 * PI * INR (M - 1 - n) / INR (M - 1)) = cos (IZR q * 2 * PI * INR n / INR (M - 1)).
Proof.
  intros HM Hn q Hq. rewrite minus_INR by lia. assert (P : 0 < INR (M - 1)) by (apply lt_0_INR; lia).
  replace (IZR q * 2 * PI * (INR (M - 1) - INR n) / INR (M - 1)) with (- (IZR q * 2 * PI * INR n / INR (M - 1)) + IZR q * 2 * PI) by (field; lra).
  destruct Hq as [-> | ->].
  - replace (1 * 2 * PI) with (2 * PI) by ring. rewrite cos_plus, cos_2PI, sin_2PI, cos_neg. ring.
  - replace (2 * 2 * PI) with (2 * PI + 2 * PI) by ring. rewrite cos_plus, (cos_plus (2 * PI)), (sin_plus (2 * PI)), cos_2PI, sin_2PI, cos_neg. ring_simplify. f_equal.
Qed.
Lemma angle_q M n (q : Z) : IZR q * 2 * PI * INR n / INR (M - 1) = IZR q * (2 * PI * INR n / INR (M - 1)).
Proof. unfold Rdiv. ring. Qed.

(** The Blackman weight in terms of the one cosine. *)
Lemma blackman_c M n : let c := cos (2 * PI * INR n / INR (M - 1)) in win_at Blackman M n = 34 / 100 - 1 / 2 * c + 16 / 100 * (c * c).
Proof.
  cbv zeta. cbn [win_at]. replace (4 * PI * INR n / INR (M - 1)) with (2 * (2 * PI * INR n / INR (M - 1))) by (unfold Rdiv; ring). rewrite cos_2a_cos. lra.
Qed.

Theorem C35_window_weights : forall w M, w <> BadWindow -> (3 <= M)%nat ->
  (forall n, (n < M)%nat -> win_at w M (M - 1 - n) = win_at w M n) /\
  win_at w M 0 = edge w /\
  (Nat.odd M = true -> win_at w M ((M - 1) / 2) = 1) /\
  (forall n, (2 * S n <= M - 1)%nat -> win_at w M n <= win_at w M (S n)) /\
  (w <> Flat -> forall n, (2 * S n <= M - 1)%nat -> win_at w M n < win_at w M (S n)).
Proof.
  intros w M Hw HM. assert (P : 0 < INR (M - 1)) by (apply lt_0_INR; lia).
  assert (H1 : forall n, (n < M)%nat -> win_at w M (M - 1 - n) = win_at w M n).
  { intros n Hn. pose proof (angle_mirror M n ltac:(lia) Hn 1%Z ltac:(auto)) as A1. rewrite !angle_q, !Rmult_1_l in A1.
    destruct w; try reflexivity; try congruence; [cbn [win_at]; rewrite A1; reflexivity|cbn [win_at]; rewrite A1; reflexivity| |rewrite !blackman_c, A1; reflexivity].
    cbn [win_at]. rewrite (minus_INR (M - 1) n) by lia. do 2 f_equal. replace (INR (M - 1) - INR n - INR (M - 1) / 2) with (- (INR n - INR (M - 1) / 2)) by lra. apply Rabs_Ropp. }
  assert (C0 : cos (2 * PI * INR 0 / INR (M - 1)) = 1) by (replace (2 * PI * INR 0 / INR (M - 1)) with 0 by (cbn [INR]; unfold Rdiv; ring); apply cos_0).
  assert (H2 : win_at w M 0 = edge w).
  { destruct w; try reflexivity; try congruence; [cbn [win_at edge]; rewrite C0; lra|cbn [win_at edge]; rewrite C0; lra| |rewrite blackman_c, C0; cbn [edge]; lra].
    cbn [win_at edge]. cbn [INR]. rewrite Rabs_left by lra. field. lra. }
  assert (H3 : Nat.odd M = true -> win_at w M ((M - 1) / 2) = 1).
  { intros HO. apply Nat.odd_spec in HO as [m Em]. assert (Em' : ((M - 1) / 2 = m)%nat) by (rewrite Em; replace (2 * m + 1 - 1)%nat with (m * 2)%nat by lia; apply Nat.div_mul; lia). rewrite Em'.
    assert (EI : INR (M - 1) = 2 * INR m) by (replace (M - 1)%nat with (2 * m)%nat by lia; rewrite mult_INR; cbn [INR]; ring).
    assert (CP : cos (2 * PI * INR m / INR (M - 1)) = -1) by (rewrite EI; replace (2 * PI * INR m / (2 * INR m)) with PI by (field; rewrite EI in P; lra); apply cos_PI).
    destruct w; try reflexivity; try congruence; [cbn [win_at]; rewrite CP; lra|cbn [win_at]; rewrite CP; lra| |rewrite blackman_c, CP; lra].
    cbn [win_at]. rewrite EI in *. replace (INR m - 2 * INR m / 2) with 0 by lra. rewrite Rabs_R0. field. lra. }
  assert (H5 : w <> Flat -> forall n, (2 * S n <= M - 1)%nat -> win_at w M n < win_at w M (S n)).
  { intros HF n Hn. assert (In : INR (S n) <= INR (M - 1) / 2) by (apply le_INR in Hn; rewrite mult_INR in Hn; change (INR 2) with 2 in Hn; lra).
    assert (In' : INR (S n) = INR n + 1) by apply S_INR. pose proof (pos_INR n) as Pn.
    assert (PP := PI_RGT_0).
    assert (Cd : cos (2 * PI * INR (S n) / INR (M - 1)) < cos (2 * PI * INR n / INR (M - 1))).
    { assert (Hq : forall q, 0 <= q <= INR (M - 1) / 2 -> 0 <= 2 * PI * q / INR (M - 1) <= PI).
      { intros q Hq. split.
        - apply Rmult_le_pos; [nra|left; apply Rinv_0_lt_compat, P].
        - apply Rmult_le_reg_r with (INR (M - 1)); [exact P|]. replace (2 * PI * q / INR (M - 1) * INR (M - 1)) with (2 * PI * q) by (field; lra). nra. }
      apply cos_decreasing_1; try (apply Hq; lra). apply Rmult_lt_reg_r with (INR (M - 1)); [exact P|].
      replace (2 * PI * INR n / INR (M - 1) * INR (M - 1)) with (2 * PI * INR n) by (field; lra). replace (2 * PI * INR (S n) / INR (M - 1) * INR (M - 1)) with (2 * PI * INR (S n)) by (field; lra). nra. }
    destruct w; try congruence; [cbn [win_at]; lra|cbn [win_at]; lra| |].
    - cbn [win_at]. rewrite !Rabs_left1 by lra. rewrite In'. apply Rmult_lt_compat_l; [apply Rdiv_lt_0_compat; lra|lra].
    - rewrite !blackman_c. pose proof (COS_bound (2 * PI * INR (S n) / INR (M - 1))). pose proof (COS_bound (2 * PI * INR n / INR (M - 1))). nra. }
  split; [exact H1|]. split; [exact H2|]. split; [exact H3|]. split; [|exact H5]. intros n Hn. destruct w; try congruence; try (left; apply H5; [discriminate|exact Hn]). right. reflexivity.
Qed.

(** ** C33: one second-order section *)

(** Sample [k] of a record, zero before its start. *)
Definition sample (x : list R) (k : Z) : R := if Z.ltb k 0 then 0 else nth (Z.to_nat k) x 0.
Definition obeys (c : section) (x y : list R) : Prop :=
  List.length y = List.length x /\
  forall n, (0 <= n < Z.of_nat (List.length x))%Z ->
    sample y n = b0 c * sample x n + b1 c * sample x (n - 1) + b2 c * sample x (n - 2) - a1 c * sample y (n - 1) - a2 c * sample y (n - 2).
(** One section after the other, each at rest. *)
Inductive cascade : list section -> list R -> list R -> Prop :=
| cascade_nil x : cascade [] x x
| cascade_cons c sos x y z : obeys c x y -> cascade sos y z -> cascade (c :: sos) x z.

Lemma biquad_len c x : forall z1 z2, List.length (biquad c z1 z2 x) = List.length x.
Proof. induction x as [|u x IH]; intros; [reflexivity|]. cbn [biquad List.length]. f_equal. apply IH. Qed.
Lemma biquad_nth c x : forall z1 z2 n, (n < List.length x)%nat ->
  nth n (biquad c z1 z2 x) 0 = b0 c * nth n x 0 +
    match n with
    | O => z1
    | S O => b1 c * nth 0 x 0 - a1 c * nth 0 (biquad c z1 z2 x) 0 + z2
    | S (S k) => b1 c * nth (S k) x 0 - a1 c * nth (S k) (biquad c z1 z2 x) 0 + (b2 c * nth k x 0 - a2 c * nth k (biquad c z1 z2 x) 0)
    end.
Proof.
  induction x as [|u x IH]; intros z1 z2 n Hn; [cbn in Hn; lia|]. destruct n as [|n]; [reflexivity|]. cbn [List.length] in Hn. cbn [biquad nth]. rewrite IH by lia.
  destruct n as [|[|n]]; reflexivity.
Qed.
Theorem C33_difference_equation : forall sos x, cascade sos x (sosfilt sos x).
Proof.
  intros sos. induction sos as [|c sos IH]; intros x; [apply cascade_nil|]. unfold sosfilt. cbn [fold_left]. apply cascade_cons with (y := biquad c 0 0 x); [|apply IH].
  split; [apply biquad_len|]. intros n Hn. unfold sample. rewrite (proj2 (Z.ltb_ge n 0)) by lia. assert (Hn' : (Z.to_nat n < List.length x)%nat) by lia. rewrite (biquad_nth c x 0 0 _ Hn').
  destruct (Z.to_nat n) as [|[|k]] eqn:E.
  - rewrite !(proj2 (Z.ltb_lt _ 0)) by lia. ring.
  - rewrite (proj2 (Z.ltb_ge (n - 1) 0)), (proj2 (Z.ltb_lt (n - 2) 0)) by lia. replace (Z.to_nat (n - 1)) with 0%nat by lia. ring.
  - rewrite (proj2 (Z.ltb_ge (n - 1) 0)), (proj2 (Z.ltb_ge (n - 2) 0)) by lia. replace (Z.to_nat (n - 1)) with (S k) by lia. replace (Z.to_nat (n - 2)) with k by lia. ring.
Qed.
(** The equation and rest before the start determine the output. *)
Theorem C33_difference_equation_unique : forall sos x y, cascade sos x y -> y = sosfilt sos x.
Proof.
  intros sos x y H. induction H as [x|c sos x y z [L Hy] H IH]; [reflexivity|]. rewrite IH. unfold sosfilt. cbn [fold_left]. f_equal.
  apply (nth_ext _ _ 0 0); [rewrite biquad_len; exact L|]. intros n Hn. rewrite L in Hn.
  assert (Ho : obeys c x (biquad c 0 0 x)) by (pose proof (C33_difference_equation [c] x) as Q; inversion Q as [|? ? ? y' ? Q1 Q2]; subst; inversion Q2; subst; exact Q1).
  destruct Ho as [_ Ho].
  assert (G : forall m, (m <= n)%nat -> forall k, (k <= Z.of_nat m)%Z -> sample y k = sample (biquad c 0 0 x) k).
  { induction m as [|m IHm]; intros Hm k Hk.
    - destruct (Z.ltb_spec k 0) as [Q|Q]; [unfold sample; rewrite (proj2 (Z.ltb_lt k 0) Q); reflexivity|]. assert (k = 0%Z) by lia. subst k. rewrite Hy, Ho by lia. unfold sample. cbn. reflexivity.
    - destruct (Z.eq_dec k (Z.of_nat (S m))) as [->|]; [|apply IHm; lia]. rewrite Hy, Ho by lia. rewrite !(IHm ltac:(lia)) by lia. reflexivity. }
  specialize (G n (Nat.le_refl _) (Z.of_nat n) (Z.le_refl _)). unfold sample in G. rewrite (proj2 (Z.ltb_ge _ 0)), Nat2Z.id in G by lia. exact G.
Qed.

(** ** C29: which files a query reads *)
Definition ends_in (suffix f : string) : Prop := exists stem, f = (stem ++ suffix)%string.
Definition table_suffix (m : method) (fourier : bool) : string :=
  match m, fourier with
  | nl_hh, true => "_af_fs_nl_hh_avg.csv" | nl_hh, false => "_af_rs_nl_hh_avg.csv"
  | eq_hh, true => "_af_fs_eq_hh_avg.csv" | _, _ => "_af_rs_eq_hh_avg.csv"
  end.
Definition axis_suffix (fourier : bool) : string := if fourier then "_freq.csv" else "_period.csv".

Lemma sapp_assoc a b c : ((a ++ b) ++ c = a ++ b ++ c)%string.
Proof. induction a as [|x a IH]; [reflexivity|]. cbn. rewrite IH. reflexivity. Qed.
Lemma ends_names a b c suf : c = suf -> ends_in suf (a ++ "_" ++ b ++ c)%string.
Proof. intros ->. exists (a ++ "_" ++ b)%string. rewrite !sapp_assoc. reflexivity. Qed.

Section Reads.
Variable table table' : what -> string -> option (list (list R)).
Variable axis axis' : what -> string -> option (list R).
Variable gd : list (R * R * R) -> list R -> R * R * R -> num.

Lemma query_all_same w fourier m c :
  (forall v z, table w (y_filename w fourier m v z) = table' w (y_filename w fourier m v z)) ->
  (forall v z, axis w (x_filename w fourier v z) = axis' w (x_filename w fourier v z)) ->
  query_all table axis w fourier m c = query_all table' axis' w fourier m c.
Proof.
  intros HT HA. induction c as [|[[i j] k] c IH]; [reflexivity|]. cbn [query_all]. rewrite IH.
  destruct (get Vs30_array i) as [v|]; [|reflexivity]. destruct (get z1_array j) as [z|]; [|reflexivity]. destruct (get PGA_array k) as [p|]; [|reflexivity]. cbn [bind].
  replace (query table axis w v z k fourier m) with (query table' axis' w v z k fourier m); [reflexivity|]. unfold query. rewrite HT, HA. reflexivity.
Qed.
Lemma get_results_same w s fourier m :
  (forall v z, table w (y_filename w fourier m v z) = table' w (y_filename w fourier m v z)) ->
  (forall v z, axis w (x_filename w fourier v z) = axis' w (x_filename w fourier v z)) ->
  get_results table axis gd w s fourier m = get_results table' axis' gd w s fourier m.
Proof. intros HT HA. unfold get_results. destruct (locate_grids s) as [c|]; [|reflexivity]. cbn [bind]. rewrite (query_all_same w fourier m c HT HA). reflexivity. Qed.

(** The amplification factors for Fourier spectra depend on the Fourier tables of
    the method asked for and on the frequency files only, those for response spectra
    on the response-spectrum tables and the period files, phase shifts on the phase
    tables; whatever else is in the data directory has no influence. *)
Theorem C29_reads_only_its_files : forall s,
  (forall m fourier,
     (forall f, ends_in (table_suffix m fourier) f -> table Amplif f = table' Amplif f) ->
     (forall f, ends_in (axis_suffix fourier) f -> axis Amplif f = axis' Amplif f) ->
     get_amplification table axis gd s m fourier = get_amplification table' axis' gd s m fourier) /\
  (forall m,
     (forall f, ends_in "_phase_shift_eq_hh_avg.csv" f -> table Phase f = table' Phase f) ->
     (forall f, ends_in "_freq.csv" f -> axis Phase f = axis' Phase f) ->
     get_phase_shift table axis gd s m = get_phase_shift table' axis' gd s m).
Proof.
  intros s. split.
  - intros m fourier HT HA. destruct m; try reflexivity; unfold get_amplification; (rewrite get_results_same; [reflexivity| |]); intros v z;
      [apply HT|apply HA|apply HT|apply HA]; unfold y_filename, x_filename; apply ends_names; destruct fourier; reflexivity.
  - intros m HT HA. destruct m; try reflexivity. unfold get_phase_shift. rewrite get_results_same; [reflexivity| |]; intros v z; [apply HT|apply HA]; unfold y_filename, x_filename; apply ends_names; reflexivity.
Qed.
End Reads.

(** ** C59: which of the kernel's files go *)
Lemma substring_all s : substring 0 (String.length s) s = s.
Proof. induction s as [|a s IH]; [reflexivity|]. cbn. rewrite IH. reflexivity. Qed.
Lemma substring_skip a s : substring (String.length a) (String.length s) (a ++ s)%string = s.
Proof. induction a as [|x a IH]; [apply substring_all|]. cbn. exact IH. Qed.
Lemma length_sapp a b : String.length (a ++ b)%string = (String.length a + String.length b)%nat.
Proof. induction a as [|x a IH]; [reflexivity|]. cbn. rewrite IH. reflexivity. Qed.
Lemma suffix_split n : forall s, (n <= String.length s)%nat -> s = (substring 0 (String.length s - n) s ++ substring (String.length s - n) n s)%string.
Proof.
  intros s. remember (String.length s - n)%nat as m eqn:Em. revert s Em. induction m as [|m IH]; intros s Em Hn.
  - replace n with (String.length s) by lia. rewrite substring_all. destruct s; reflexivity.
  - destruct s as [|a s]; [cbn in Em; lia|]. change (String.length (String a s)) with (S (String.length s)) in Em, Hn. cbn [substring String.append]. f_equal. apply IH; lia.
Qed.
Lemma has_suffix_iff suf s : has_suffix suf s = true <-> ends_in suf s.
Proof.
  unfold has_suffix. rewrite andb_true_iff, Nat.leb_le, String.eqb_eq. split.
  - intros [L E]. exists (substring 0 (String.length s - String.length suf) s). rewrite <- E at 2. apply suffix_split, L.
  - intros [stem ->]. rewrite length_sapp. split; [lia|]. replace (String.length stem + String.length suf - String.length suf)%nat with (String.length stem) by lia. apply substring_skip.
Qed.
Lemma hidden_iff s : prefix "." s = true <-> exists r, s = ("." ++ r)%string.
Proof.
  destruct s as [|a s]; [split; [discriminate|intros [r H]; discriminate]|]. cbn [prefix]. destruct (Ascii.ascii_dec "."%char a) as [<-|N].
  - split; [intros _; exists s; reflexivity|]. intros _. destruct s; reflexivity.
  - split; [discriminate|]. intros [r H]. injection H as H _. congruence.
Qed.
(** After a run that keeps its directory: every visible file ending in [.dat] that
    the kernel left is gone unless it is written again as a result; a hidden one, and
    every file with another ending except the kernel itself, stays. *)
Theorem C59_data_files : forall w q fail w' k, closed (w_fs w) -> nonlinear_run w q fail = (w', k, Ok tt) -> ~ may_remove q ->
  let P := simdir w q in
  (forall x, ends_in ".dat" x -> ~ (exists r, x = ("." ++ r)%string) -> ~ In x (q_figs q) -> ~ In x (q_txts q) -> look (w_fs w') (x :: P) = None) /\
  (forall x, In x (q_out q) -> x <> q_exe q -> (~ ends_in ".dat" x \/ exists r, x = ("." ++ r)%string) -> look (w_fs w') (x :: P) <> None).
Proof.
  intros w q fail w' k Hc H Hm P. destruct (C59_what_is_left w q fail w' k Hc H) as [A _]. destruct (A Hm) as [_ B]. fold P in B. split.
  - intros x Hx Hh Hf Ht. destruct (look (w_fs w') (x :: P)) eqn:E; [exfalso|reflexivity]. destruct (proj1 (B x)) as [(_ & D & _)|[(_ & _ & F)|(_ & F)]]; [congruence| |tauto|tauto].
    unfold is_dat in D. rewrite (proj2 (has_suffix_iff _ _) Hx) in D. cbn [andb] in D. apply negb_false_iff in D. apply hidden_iff in D. tauto.
  - intros x Ho He Hd. apply B. left. split; [exact Ho|]. split; [|exact He]. unfold is_dat. destruct Hd as [Hd|Hd].
    + destruct (has_suffix ".dat" x) eqn:E; [apply has_suffix_iff in E; tauto|reflexivity].
    + rewrite (proj2 (hidden_iff x) Hd). apply andb_false_r.
Qed.

(** ** C87: the maxima *)
Definition largest (m : R) (l : list R) : Prop := (forall x, In x l -> Rabs x <= m) /\ (l <> [] -> exists x, In x l /\ Rabs x = m).
Lemma fold_max l : forall a, (forall x, In x l -> x <= fold_left Rmax l a) /\ a <= fold_left Rmax l a /\ (fold_left Rmax l a = a \/ In (fold_left Rmax l a) l).
Proof.
  induction l as [|x l IH]; intros a; [cbn; repeat split; [tauto|lra|auto]|]. cbn [fold_left]. destruct (IH (Rmax a x)) as (A & B & C). split; [|split].
  - intros y [<-|Hy]; [eapply Rle_trans; [apply Rmax_r|exact B]|apply A, Hy].
  - eapply Rle_trans; [apply Rmax_l|exact B].
  - destruct C as [C|C]; [|right; right; exact C]. rewrite C. unfold Rmax. destruct (Rle_dec a x); [right; left; reflexivity|left; reflexivity].
Qed.
Lemma col_max_largest f i : (i < List.length (a_cols f))%nat -> largest (nth i (col_max f) 0) (nth i (a_cols f) []).
Proof.
  intros Hi. unfold col_max. set (g := fun c : list R => fold_left Rmax (map Rabs c) 0). rewrite (nth_indep _ 0 (g [])) by (rewrite map_length; exact Hi). rewrite (map_nth g). unfold g. set (l := nth i (a_cols f) []).
  destruct (fold_max (map Rabs l) 0) as (A & B & C). split.
  - intros x Hx. apply A. apply in_map, Hx.
  - intros Hne. destruct C as [C|C].
    + destruct l as [|x l]; [congruence|]. exists x. split; [left; reflexivity|]. rewrite C. apply Rle_antisym; [|apply Rabs_pos]. rewrite <- C. apply A. left. reflexivity.
    + apply in_map_iff in C as (x & E & Hx). exists x. split; [exact Hx|]. rewrite E. reflexivity.
Qed.

(** The first column of the two tables of maxima is the depth of the nodes and of
    the layer centres; the others are, in this order, the largest absolute
    acceleration, velocity and displacement of each node, and the largest absolute
    strain and stress of each layer. *)
Theorem C87_nonlinear_maxima : forall time w input q k tf tfs name dir w' x,
  nonlinear_results time w input q k tf tfs name dir = (w', Ok x) ->
  exists A V D G T, rr_max_avd x = Some (mkarr (List.length (kf_zn k)) [kf_zn k; A; V; D]) /\
    rr_max_gt x = Some (mkarr (List.length (kf_zl k)) [kf_zl k; G; T]) /\
    (forall i, (i < List.length (kf_zn k))%nat ->
       largest (nth i A 0) (nth i (a_cols (kf_a k)) []) /\ largest (nth i V 0) (nth i (a_cols (kf_v k)) []) /\ largest (nth i D 0) (nth i (a_cols (kf_d k)) [])) /\
    (forall i, (i < List.length (kf_zl k))%nat ->
       largest (nth i G 0) (nth i (a_cols (kf_gamma k)) []) /\ largest (nth i T 0) (nth i (a_cols (kf_tau k)) [])).
Proof.
  intros time [h sh] input q k tf tfs name dir w' x H. unfold nonlinear_results, column_stack in H.
  destruct (forallb _ _) eqn:F1 in H; cbn [bind] in H; [|discriminate]. destruct (forallb _ _) eqn:F2 in H; cbn [bind] in H; [|discriminate].
  destruct (surface_of _ _) as [y|]; cbn [bind] in H; [|discriminate]. destruct (gm_init _ _ _ _) as [sh1 [m|]]; [|discriminate]. destruct (vs_init _ _ _ _ _ _) as [h1 [o|]]; [|discriminate].
  cbn [bind] in H. injection H as _ H. apply C63_accepts_iff in H as (s & p & _ & _ & _ & _ & _ & _ & _ & _ & _ & _ & _ & _ & HM & _).
  destruct HM as [M1 M2]; [unfold absent; intros [N|N]; discriminate|]. cbn [given] in M1, M2.
  exists (col_max (kf_a k)), (col_max (kf_v k)), (col_max (kf_d k)), (col_max (kf_gamma k)), (col_max (kf_tau k)). split; [exact M1|]. split; [exact M2|].
  cbn [forallb] in F1, F2. unfold col_max at 1 2 3 in F1. unfold col_max at 1 2 in F2. rewrite !map_length in F1, F2. rewrite !andb_true_r in F1, F2. apply andb_true_iff in F1 as [L1 F1]. apply andb_true_iff in F1 as [L2 L3]. apply andb_true_iff in F2 as [L4 L5]. rewrite Nat.eqb_eq in L1, L2, L3, L4, L5. rewrite map_length in L3.
  split; intros i Hi.
  - split; [|split]; apply col_max_largest; [rewrite L1|rewrite L2|rewrite L3]; exact Hi.
  - split; apply col_max_largest; [rewrite L4|rewrite L5]; exact Hi.
Qed.

(** ** Instances *)
Example C35_window_weights_instance : win_at Hamming 5 1 = 54 / 100 /\ win_at Hamming 5 2 = 1 /\ win_at Bartlett 5 1 = 1 / 2.
Proof.
  split; [|split].
  - cbn [win_at]. replace (2 * PI * INR 1 / INR (5 - 1)) with (PI / 2) by (cbn; field). rewrite cos_PI2. lra.
  - apply (C35_window_weights Hamming 5 ltac:(discriminate) ltac:(lia)). reflexivity.
  - cbn. rewrite Rabs_left by lra. lra.
Qed.
Example C33_difference_equation_instance : sosfilt [mksec 1 2 3 (1/2) (1/4)] [1; 0; 0; 1] = [1; 3 / 2; 2; -3 / 8].
Proof. unfold sosfilt. cbn. apply f_equal2; [lra|]. apply f_equal2; [lra|]. apply f_equal2; [lra|]. apply f_equal2; [lra|reflexivity]. Qed.
