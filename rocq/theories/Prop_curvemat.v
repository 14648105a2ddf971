(** C97: curve matrices and the classes that hold curves. *)
From Coq Require Import Reals List Bool ZArith Lia Lra.
From Verif Require Import Base M_generic M_profile M_motion M_soil M_interp M_dampcal M_hhcal M_curves M_curvemat P_generic P_soil P_interp P_hhcal Prop_generic Prop_curves P_curvemat.
Import ListNotations.
Open Scope R_scope.

(** Independent vocabulary: the greatest number of samples; a curve with samples in
    increasing order of strain; cells of a matrix; which column holds the property
    and which one the filler. *)
Definition longest (m : nat) (cs : list vcurve) : Prop :=
  (forall c, In c cs -> (length c <= m)%nat) /\ exists c, In c cs /\ length c = m.
Definition ordered (c : vcurve) : Prop := c <> [] /\ incr c /\ nonneg_strains c.
Definition at_cell (M : list (list R)) (i j : nat) : R := nth j (nth i M []) 0.
Definition value_col (k : kind) : nat := match k with KG => 1%nat | KD => 3%nat end.
Definition filler_col (k : kind) : nat := match k with KG => 3%nat | KD => 1%nat end.

Lemma longest_unique m cs : longest m cs -> cs <> [] /\ m = max_length cs.
Proof.
  intros (A & c & Hin & L). split; [destruct cs; [destruct Hin|discriminate]|].
  destruct (max_length_spec cs) as [B C]. destruct C as (c' & Hin' & L'); [destruct cs; [destruct Hin|discriminate]|].
  pose proof (A c' Hin'). pose proof (B c Hin). lia.
Qed.

(** What one layer becomes. *)
Lemma resample_ordered m c : ordered c -> (length c < m)%nat -> 0 < fst (nth 0 c (0, 0)) ->
  exists c', resample m c = Ok c' /\ length c' = m /\
    fst (nth 0 c' (0, 0)) = fst (nth 0 c (0, 0)) /\ fst (nth (m - 1) c' (0, 0)) = fst (nth (length c - 1) c (0, 0)) /\
    ((2 <= length c)%nat -> incr c') /\
    (forall i, (i < m)%nat -> pl_value c (fst (nth i c' (0, 0))) (snd (nth i c' (0, 0)))).
Proof.
  intros (Hne & Hi & Hn) HL Hpos. destruct c as [|p c]; [congruence|]. cbn [nth] in Hpos.
  destruct (incr_extremes p c Hi) as [Emin Emax].
  destruct c as [|q c].
  - destruct p as [x y]. cbn [fst] in *. unfold resample. replace (Nat.eqb (length [(x, y)]) m) with false by (symmetry; apply Nat.eqb_neq; lia).
    cbn [map fst]. cbn [map] in Emin, Emax. rewrite Emin, Emax. cbn [length nth fst]. rewrite (proj2 (Reqb_false x 0)) by lra. cbn [orb].
    destruct (np_interp_ok [(x, y)] (geomspace x x m)) as (ys & Ey & Ly & Hy); [discriminate|]. rewrite Ey. cbn [bind].
    rewrite geomspace_length in Ly, Hy. assert (Hg : forall i, (i < m)%nat -> nth i (geomspace x x m) 0 = x).
    { intros i Him. unfold geomspace. rewrite (nth_indep _ 0 (Rpower 10 0)) by (rewrite map_length, P_interp.linspace_length; exact Him).
      rewrite (map_nth (fun e => Rpower 10 e)), linspace_nth' by (cbn in HL; lia). unfold Rdiv. rewrite Rminus_diag_eq, Rmult_0_l, Rmult_0_r, Rplus_0_r by reflexivity. apply pow10_log10. exact Hpos. }
    eexists. split; [reflexivity|]. split; [rewrite combine_length, Ly, geomspace_length; lia|].
    rewrite !nth_combine0 by (rewrite geomspace_length; lia). cbn [fst].
    rewrite !Hg by (cbn in HL; lia). split; [reflexivity|]. split; [reflexivity|]. split; [cbn; lia|].
    intros i Him. rewrite nth_combine0 by (rewrite geomspace_length; lia). cbn [fst snd]. specialize (Hy i Him). rewrite Hg in Hy by exact Him. rewrite Hg by exact Him.
    cbn [interp1] in Hy. rewrite (proj2 (Rltb_false x x)) in Hy by lra. cbn [interp_from] in Hy. injection Hy as <-. apply (PL_left _ _ y x []); [reflexivity|lra].
  - set (c0 := p :: q :: c) in *. set (lo := fst p) in *. set (hi := fst (nth (length (q :: c)) c0 (0, 0))) in *.
    assert (Hlh : lo < hi) by (apply (incr_lt c0 0 (length (q :: c)) Hi); cbn; lia).
    destruct (C72_interpolation lo hi m c0 true) as (s & Es & Ls & S0 & S1 & Sinc & Spl & _); [cbn in HL; lia|exact Hlh|intros _; exact Hpos|discriminate|exact Hi|].
    exists s. split; [|split; [exact Ls|split; [exact S0|split; [|split; [intros _; exact Sinc|exact Spl]]]]].
    + unfold resample. replace (Nat.eqb (length c0) m) with false by (symmetry; apply Nat.eqb_neq; lia). change (map fst c0) with (lo :: map fst (q :: c)). cbv iota. rewrite Emin, Emax.
      rewrite (proj2 (Reqb_false lo 0)), (proj2 (Reqb_false hi 0)) by lra. cbn [orb]. exact Es.
    + rewrite S1. unfold hi. reflexivity.
Qed.

Definition layer_cells (k : kind) (f : R) (m l : nat) (c : vcurve) (M : list (list R)) : Prop :=
  (forall i, (i < m)%nat -> at_cell M i (4 * l + 2) = at_cell M i (4 * l) /\ at_cell M i (4 * l + filler_col k) = f /\
     pl_value c (at_cell M i (4 * l)) (at_cell M i (4 * l + value_col k))) /\
  (length c = m -> forall i, (i < m)%nat -> (at_cell M i (4 * l), at_cell M i (4 * l + value_col k)) = nth i c (0, 0)) /\
  at_cell M 0 (4 * l) = fst (nth 0 c (0, 0)) /\ at_cell M (m - 1) (4 * l) = fst (nth (length c - 1) c (0, 0)) /\
  ((2 <= length c)%nat -> forall i, (S i < m)%nat -> at_cell M i (4 * l) < at_cell M (S i) (4 * l)).

(** The matrix has as many rows as the longest curve and four columns per layer:
    strain, G/Gmax, strain, damping.  The longest curves appear as they are, the
    others on strains from their first to their last strain, with interpolated
    values; the other property is the filler. *)
Theorem C97_layout : forall k f cs m, longest m cs -> Forall ordered cs ->
  (forall c, In c cs -> (length c < m)%nat -> 0 < fst (nth 0 c (0, 0))) ->
  exists M, curve_matrix k f cs = Ok M /\ length M = m /\ Forall (fun r => length r = (4 * length cs)%nat) M /\
    forall l, (l < length cs)%nat -> layer_cells k f m l (nth l cs []) M.
Proof.
  intros k f cs m Hm Ho Hp. destruct (longest_unique m cs Hm) as [Hne Em]. destruct Hm as [Hle _].
  assert (Hall : forall c, In c cs -> exists c', resample m c = Ok c' /\ length c' = m /\
    fst (nth 0 c' (0, 0)) = fst (nth 0 c (0, 0)) /\ fst (nth (m - 1) c' (0, 0)) = fst (nth (length c - 1) c (0, 0)) /\
    ((2 <= length c)%nat -> incr c') /\ (length c = m -> c' = c) /\
    (forall i, (i < m)%nat -> pl_value c (fst (nth i c' (0, 0))) (snd (nth i c' (0, 0))))).
  { intros c Hc. rewrite Forall_forall in Ho. specialize (Ho c Hc). destruct (Nat.eq_dec (length c) m) as [E|E].
    - exists c. unfold resample. rewrite (proj2 (Nat.eqb_eq _ _) E). split; [reflexivity|]. split; [exact E|]. split; [reflexivity|]. split; [rewrite E; reflexivity|].
      split; [intros _; apply Ho|]. split; [reflexivity|]. intros i Hi. apply pl_node. lia.
    - assert (HL : (length c < m)%nat) by (specialize (Hle c Hc); lia). destruct (resample_ordered m c Ho HL (Hp c Hc HL)) as (c' & A & B & C & D & F & G).
      exists c'. split; [exact A|]. split; [exact B|]. split; [exact C|]. split; [exact D|]. split; [exact F|]. split; [intros X; congruence|exact G]. }
  pose proof (matrix_spec k f cs Hne) as S1. rewrite <- Em in S1.
  destruct (proj2 (map_res_ok_iff (resample m) cs)) as [cs' Ecs']; [intros a Ha; destruct (Hall a Ha) as (c' & E & _); eauto|].
  rewrite Ecs' in S1. destruct S1 as (M & EM & LM & HM). exists M. split; [exact EM|]. split; [exact LM|].
  apply map_res_Forall2 in Ecs'. destruct (Forall2_nth _ _ _ [] [] Ecs') as [Lc Hc].
  assert (Lrow : forall i, (i < m)%nat -> length (nth i M []) = (4 * length cs)%nat).
  { intros i Hi. rewrite HM by exact Hi. rewrite concat4_length by (intros; apply cell4_length). rewrite Lc. reflexivity. }
  split.
  { apply Forall_forall. intros r Hr. apply (In_nth _ _ []) in Hr as (i & Hi & <-). apply Lrow. lia. }
  intros l Hl. specialize (Hc l Hl). destruct (Hall (nth l cs []) (nth_In _ _ Hl)) as (c' & E & L & C0 & C1 & Cinc & Csame & Cpl).
  pose proof (eq_trans (eq_sym Hc) E) as X. injection X as X. clear E. rename X into E.
  assert (Hcell : forall i j, (i < m)%nat -> (j < 4)%nat -> at_cell M i (4 * l + j) = nth j (cell4 k f (nth i c' (0, 0))) 0).
  { intros i j Hi Hj. unfold at_cell. rewrite HM by exact Hi. rewrite (concat4_nth (fun c => cell4 k f (nth i c (0, 0))) 0 []) by (first [intros; apply cell4_length | exact Hj | rewrite Lc; exact Hl]).
    rewrite E. reflexivity. }
  assert (H0 : forall i, (i < m)%nat -> at_cell M i (4 * l) = fst (nth i c' (0, 0))).
  { intros i Hi. replace (4 * l)%nat with (4 * l + 0)%nat by lia. rewrite Hcell by lia. destruct k; reflexivity. }
  assert (Hv : forall i, (i < m)%nat -> at_cell M i (4 * l + value_col k) = snd (nth i c' (0, 0))).
  { intros i Hi. rewrite Hcell by (try lia; destruct k; cbn; lia). destruct k; reflexivity. }
  assert (Hm0 : (0 < m)%nat).
  { pose proof (Hle (nth l cs []) (nth_In _ _ Hl)). rewrite Forall_forall in Ho. destruct (Ho (nth l cs []) (nth_In _ _ Hl)) as [Hn0 _]. destruct (nth l cs []); [congruence|cbn in H; lia]. }
  split; [|split; [|split; [|split]]].
  - intros i Hi. split; [rewrite H0 by exact Hi; rewrite Hcell by lia; destruct k; reflexivity|].
    split; [rewrite Hcell by (try lia; destruct k; cbn; lia); destruct k; reflexivity|]. rewrite H0, Hv by exact Hi. apply Cpl, Hi.
  - intros El i Hi. rewrite H0, Hv by exact Hi. rewrite (Csame El). destruct (nth i (nth l cs []) (0, 0)); reflexivity.
  - rewrite H0 by exact Hm0. exact C0.
  - rewrite H0 by lia. exact C1.
  - intros H2 i Hi. rewrite !H0 by lia. apply (Cinc H2). lia.
Qed.

(** The matrix exists exactly when there is a curve and every curve shorter than
    the longest has samples, none of them at zero strain; otherwise [ValueError]. *)
Theorem C97_exists_iff : forall k f cs m, Forall nonneg_strains cs -> longest m cs ->
  ((exists M, curve_matrix k f cs = Ok M) <->
   forall c, In c cs -> (length c < m)%nat -> c <> [] /\ Forall (fun p => fst p <> 0) c) /\
  (forall e, curve_matrix k f cs = Err e -> e = ValueError).
Proof.
  intros k f cs m Hn Hm. destruct (longest_unique m cs Hm) as [Hne Em]. destruct Hm as [Hle _].
  pose proof (matrix_spec k f cs Hne) as S1. rewrite <- Em in S1. destruct (map_res (resample m) cs) as [cs'|e] eqn:E.
  - destruct S1 as (M & EM & _). split; [|rewrite EM; discriminate]. split; [|eauto]. intros _ c Hc HL.
    assert (X : exists c', resample m c = Ok c') by (apply (proj1 (map_res_ok_iff (resample m) cs)); eauto).
    rewrite Forall_forall in Hn. apply resample_ok_iff in X; [|apply Hn, Hc]. destruct X as [X|X]; [lia|exact X].
  - split.
    + split; [intros [M EM]; congruence|]. intros H. exfalso.
      destruct (proj2 (map_res_ok_iff (resample m) cs)) as [cs' X]; [|congruence]. intros c Hc. rewrite Forall_forall in Hn. apply resample_ok_iff; [apply Hn, Hc|].
      destruct (Nat.eq_dec (length c) m) as [El|El]; [left; exact El|]. right. apply H; [exact Hc|]. specialize (Hle c Hc). lia.
    + intros e' E'. rewrite S1 in E'. injection E' as <-. eapply (map_res_err (resample m) (fun e => e = ValueError)); [apply resample_err|exact E].
Qed.

Theorem C97_no_curves : forall k f, curve_matrix k f [] = Err ValueError.
Proof. reflexivity. Qed.

(** A curve that starts at zero strain is accepted on its own but not beside a
    longer one. *)
Theorem C97_zero_strain_beside_longer : forall k f c c', nonneg_strains c -> nonneg_strains c' -> In 0 (map fst c) -> (length c < length c')%nat ->
  (exists M, curve_matrix k f [c] = Ok M) /\ (exists M, curve_matrix k f [c'] = Ok M) /\ curve_matrix k f [c; c'] = Err ValueError.
Proof.
  intros k f c c' Hn Hn' H0 HL.
  assert (L1 : longest (length c) [c]) by (split; [intros a [<-|[]]; lia|exists c; cbn; auto]).
  assert (L1' : longest (length c') [c']) by (split; [intros a [<-|[]]; lia|exists c'; cbn; auto]).
  assert (L2 : longest (length c') [c; c']) by (split; [intros a [<-|[<-|[]]]; lia|exists c'; cbn; auto]).
  split; [apply (C97_exists_iff k f [c] _ ltac:(auto) L1); intros a [<-|[]] X; lia|].
  split; [apply (C97_exists_iff k f [c'] _ ltac:(auto) L1'); intros a [<-|[]] X; lia|].
  destruct (C97_exists_iff k f [c; c'] _ ltac:(auto) L2) as [I E]. destruct (curve_matrix k f [c; c']) as [M|e]; [|rewrite (E e eq_refl); reflexivity].
  exfalso. destruct (proj1 I (ex_intro _ M eq_refl) c (or_introl eq_refl) HL) as [_ F]. apply in_map_iff in H0 as (p & Ep & Hp). rewrite Forall_forall in F. apply (F p Hp), Ep.
Qed.

(** ** Reading a matrix back *)
(** A modulus ratio is at most 1, a damping at most 100 percent. *)
Definition largest (k : kind) : R := match k with KG => 1 | KD => 100 end.
Definition admissible (k : kind) (c : vcurve) : Prop := Forall (fun p => 0 <= fst p /\ 0 <= snd p <= largest k) c.
Lemma upper_is k : upper k = largest k. Proof. destruct k; reflexivity. Qed.

Lemma check_pairs c : check_two_column_format (PArr true (A2 2 (map (fun p : R * R => [Fin (fst p); Fin (snd p)]) c))) true false = Ok tt <->
  Forall (fun p => 0 <= fst p /\ 0 <= snd p) c.
Proof.
  rewrite check_two_column_format_spec. split.
  - intros (cc & rows & E & _ & _ & H). injection E as <- <-. specialize (H eq_refl). rewrite Forall_map in H. eapply Forall_impl; [|exact H].
    intros p Hp. inversion Hp as [|? ? A B]; subst. inversion B as [|? ? C _]; subst.
    destruct A as (r & E & A). destruct C as (r' & E' & C). injection E as ->. injection E' as ->. auto.
  - intros H. eexists 2%nat, _. split; [reflexivity|]. split; [reflexivity|].
    assert (Hn : Forall (Forall fin_nonneg) (map (fun p : R * R => [Fin (fst p); Fin (snd p)]) c)).
    { apply Forall_map. eapply Forall_impl; [|exact H]. intros p [A B]. constructor; [eexists; split; [reflexivity|exact A]|]. constructor; [eexists; split; [reflexivity|exact B]|constructor]. }
    split; [|intros _; exact Hn]. eapply Forall_impl; [|exact Hn]. intros; apply Forall_fin_nonneg_fin; auto.
Qed.

(** The two columns of a layer as numeric pairs. *)
Definition pairs (c : vcurve) : list (list num) := map (fun p => [Fin (fst p); Fin (snd p)]) c.

Lemma to_curve_pairs c : to_curve (pairs c) = c.
Proof. unfold to_curve, pairs. rewrite map_map. rewrite <- (map_id c) at 2. apply map_ext. intros [x y]. reflexivity. Qed.

Lemma curve_of_pairs k c : admissible k c -> curve_of k (PArr true (A2 2 (pairs c))) = Ok c.
Proof.
  intros H. unfold curve_of. unfold pairs at 1. rewrite (proj2 (check_pairs c)) by (eapply Forall_impl; [|exact H]; cbn; intros p Hp; lra). cbn [bind].
  rewrite to_curve_pairs, upper_is. replace (existsb _ c) with false; [reflexivity|]. symmetry. apply existsb_false. eapply Forall_impl; [|exact H]. cbn. intros p Hp. apply Rltb_false. lra.
Qed.

Lemma curve_of_ok_iff k rows c : Forall (fun r => length r = 2%nat) rows ->
  (curve_of k (PArr true (A2 2 rows)) = Ok c <-> rows = pairs c /\ admissible k c).
Proof.
  intros HL. split; [|intros [-> H]; apply curve_of_pairs, H].
  unfold curve_of. destruct (check_two_column_format _ true false) as [[]|e] eqn:E; [|discriminate]. cbn [bind].
  apply check_two_column_format_spec in E as (cc & rr & Q & _ & _ & H). injection Q as <- <-. specialize (H eq_refl).
  destruct (existsb _ (to_curve rows)) eqn:Ex; [discriminate|]. intros X; injection X as <-. rewrite upper_is, existsb_false in Ex.
  assert (Er : rows = pairs (to_curve rows)).
  { unfold pairs, to_curve. rewrite map_map. rewrite <- (map_id rows) at 1. apply map_ext_in. intros r Hr. rewrite Forall_forall in H, HL. specialize (H r Hr). specialize (HL r Hr).
    destruct r as [|a [|b [|]]]; try discriminate. inversion H as [|? ? A B]; subst. inversion B as [|? ? C _]; subst. destruct A as (ra & -> & _), C as (rb & -> & _). reflexivity. }
  split; [exact Er|]. rewrite Er in H. unfold pairs in H. rewrite Forall_map in H. unfold admissible. rewrite Forall_forall in *. intros p Hp. specialize (H p Hp). specialize (Ex p Hp). cbv beta in Ex. apply Rltb_false in Ex.
  inversion H as [|? ? A B]; subst. inversion B as [|? ? C _]; subst. destruct A as (ra & EA & A), C as (rb & EC & C). injection EA as EA. injection EC as EC. rewrite EA, EC in *. lra.
Qed.

Lemma slice2 {A} (d : A) a (r : list A) : (a + 2 <= length r)%nat -> slice a (a + 2) r = [nth a r d; nth (a + 1) r d].
Proof.
  intros H. apply (list_ext d); [rewrite slice_length; cbn; lia|]. rewrite slice_length. intros j Hj. rewrite slice_nth by lia.
  destruct j as [|[|j]]; [| |lia]; cbn [nth]; f_equal; lia.
Qed.

Lemma cols_pairs a rows c : length rows = length c ->
  (forall i, (i < length c)%nat -> (a + 2 <= length (nth i rows []))%nat /\
     nth a (nth i rows []) NaN = Fin (fst (nth i c (0, 0))) /\ nth (a + 1) (nth i rows []) NaN = Fin (snd (nth i c (0, 0)))) ->
  cols a (a + 2) rows = pairs c.
Proof.
  intros HL H. apply (list_ext []); [rewrite cols_length; unfold pairs; rewrite map_length; exact HL|]. rewrite cols_length. intros i Hi. rewrite cols_nth.
  rewrite HL in Hi. destruct (H i Hi) as (A & B & C). rewrite (slice2 NaN) by exact A. rewrite B, C. unfold pairs.
  rewrite (nth_indep _ [] ((fun p : R * R => [Fin (fst p); Fin (snd p)]) (0, 0))) by (rewrite map_length; exact Hi). rewrite (map_nth (fun p : R * R => [Fin (fst p); Fin (snd p)])). reflexivity.
Qed.

Lemma map_res_seq {B C} (g : nat -> B) (h : B -> res C) (l : list C) d n : length l = n -> (forall k, (k < n)%nat -> h (g k) = Ok (nth k l d)) ->
  map_res h (map g (seq 0 n)) = Ok l.
Proof.
  intros <-. intros H. assert (X : forall s, (forall k, (k < length l)%nat -> h (g (s + k)%nat) = Ok (nth k l d)) -> map_res h (map g (seq s (length l))) = Ok l).
  { clear H. induction l as [|c l IH]; intros s H; [reflexivity|]. cbn [length seq map map_res]. pose proof (H 0%nat ltac:(cbn; lia)) as H0. rewrite Nat.add_0_r in H0. rewrite H0. cbn [bind nth].
    rewrite IH; [reflexivity|]. intros k Hk. specialize (H (S k) ltac:(cbn; lia)). rewrite Nat.add_succ_r in H. exact H. }
  apply X. exact H.
Qed.

Lemma matrix_same k f cs m : cs <> [] -> Forall (fun c => length c = m) cs ->
  exists M, curve_matrix k f cs = Ok M /\ length M = m /\
    forall i, (i < m)%nat -> nth i M [] = concat (map (fun c => cell4 k f (nth i c (0, 0))) cs).
Proof.
  intros Hne HF. assert (Em : m = max_length cs).
  { apply (longest_unique m cs). rewrite Forall_forall in HF. split; [intros c Hc; rewrite (HF c Hc); lia|]. destruct cs as [|c cs]; [congruence|]. exists c. split; [left; reflexivity|apply HF; left; reflexivity]. }
  pose proof (matrix_spec k f cs Hne) as S1. rewrite <- Em in S1.
  replace (map_res (resample m) cs) with (Ok cs) in S1; [exact S1|]. symmetry. apply map_res_Forall2. clear S1 Em Hne. induction HF as [|c cs E HF IH]; constructor; [|exact IH].
  unfold resample. rewrite (proj2 (Nat.eqb_eq _ _) E). reflexivity.
Qed.

Lemma finmat_row M i : (i < length M)%nat -> nth i (map (map Fin) M) [] = map Fin (nth i M []).
Proof. intros Hi. rewrite (nth_indep _ [] (map Fin [])) by (rewrite map_length; exact Hi). apply map_nth. Qed.
Lemma finmat_cell r j : (j < length r)%nat -> nth j (map Fin r) NaN = Fin (nth j r 0).
Proof. intros Hj. rewrite (nth_indep _ NaN (Fin 0)) by (rewrite map_length; exact Hj). apply map_nth. Qed.

Lemma same_cells k f cs m M : Forall (fun c => length c = m) cs -> length M = m ->
  (forall i, (i < m)%nat -> nth i M [] = concat (map (fun c => cell4 k f (nth i c (0, 0))) cs)) ->
  (forall i, (i < m)%nat -> length (nth i (map (map Fin) M) []) = (4 * length cs)%nat) /\
  (forall i l j, (i < m)%nat -> (l < length cs)%nat -> (j < 4)%nat -> nth (4 * l + j) (nth i (map (map Fin) M) []) NaN = Fin (nth j (cell4 k f (nth i (nth l cs []) (0, 0))) 0)).
Proof.
  intros HF LM HM. assert (L : forall i, (i < m)%nat -> length (nth i M []) = (4 * length cs)%nat) by (intros i Hi; rewrite HM by exact Hi; apply concat4_length; intros; apply cell4_length).
  split; [intros i Hi; rewrite finmat_row by lia; rewrite map_length; apply L, Hi|].
  intros i l j Hi Hl Hj. rewrite finmat_row by lia. rewrite finmat_cell by (rewrite L by exact Hi; lia). rewrite HM by exact Hi.
  rewrite (concat4_nth (fun c => cell4 k f (nth i c (0, 0))) 0 []) by (first [intros; apply cell4_length | exact Hj | exact Hl]). reflexivity.
Qed.

Lemma value_pair k f p : nth (2 * (value_col k / 2)) (cell4 k f p) 0 = fst p /\ nth (2 * (value_col k / 2) + 1) (cell4 k f p) 0 = snd p.
Proof. destruct k; split; reflexivity. Qed.

(** A list of curve objects and of two-column arrays: objects must be of the class asked for
    and are taken as they are; arrays must hold admissible pairs. *)
Definition gives (k : kind) (e : elem) (c : vcurve) : Prop :=
  match e with
  | ECurve k' c' => k' = k /\ c' = c
  | EArr (PArr true (A2 n rows)) => n = 2%nat /\ rows = pairs c /\ admissible k c
  | _ => False
  end.
Definition rectangular (e : elem) : Prop := match e with EArr (PArr _ (A2 n rows)) => Forall (fun r => length r = n) rows | _ => True end.
Theorem C97_from_list : forall k l, Forall rectangular l ->
  (forall cs, curves_init k (FromList l) = Ok cs <-> Forall2 (gives k) l cs) /\
  (forall e, curves_init k (FromList l) = Err e -> e = TypeError \/ e = ValueError) /\
  curves_init k FromElse = Err TypeError.
Proof.
  intros k l HR. cbn [curves_init].
  assert (One : forall e c, rectangular e -> (conv_elem k e = Ok c <-> gives k e c)).
  { intros e c He. destruct e as [[x|b a|]|k' c'|]; cbn [conv_elem gives]; try (split; [discriminate|contradiction]).
    - destruct b; [|split; [|contradiction]; unfold curve_of; destruct (check_two_column_format (PArr false a) true false) as [[]|] eqn:Q; [|discriminate]; apply check_two_column_format_spec in Q as (? & ? & Q & _); discriminate].
      destruct a as [x|o|n rows|? ? ?]; try (split; [|contradiction]; unfold curve_of; cbn; discriminate).
      destruct (Nat.eq_dec n 2) as [->|Hn]; [rewrite curve_of_ok_iff by exact He; tauto|].
      split; [|intros [? _]; contradiction]. unfold curve_of. destruct (check_two_column_format (PArr true (A2 n rows)) true false) as [[]|] eqn:Q; [|discriminate]. apply check_two_column_format_spec in Q as (? & ? & Q & ? & _). injection Q as -> ->. contradiction.
    - destruct k, k'; cbn [is_kind]; split; intros H; try discriminate; try (destruct H; discriminate); [injection H as ->; auto|destruct H as [_ ->]; reflexivity|injection H as ->; auto|destruct H as [_ ->]; reflexivity]. }
  split; [|split; [|reflexivity]].
  - intros cs. rewrite map_res_Forall2. split; intros H.
    + induction H as [|e c l cs E H IH]; [constructor|]. inversion HR; subst. constructor; [apply One; assumption|apply IH; assumption].
    + induction H as [|e c l cs E H IH]; [constructor|]. inversion HR; subst. constructor; [apply One; assumption|apply IH; assumption].
  - intros e H. revert H. apply (map_res_err (conv_elem k) (fun e => e = TypeError \/ e = ValueError)). intros x e' H. destruct x as [[x|b a|]|k' c'|]; cbn [conv_elem] in H; try (injection H as <-; auto).
    + unfold curve_of in H. destruct (check_two_column_format (PArr b a) true false) as [[]|] eqn:Q; cbn [bind] in H.
      * destruct a; try (injection H as <-; auto; fail). destruct (existsb _ _); [injection H as <-; auto|discriminate].
      * injection H as <-. revert Q. unfold check_two_column_format. destruct a as [x|o|n rows|? ? ?]; try (intros Q; injection Q as <-; auto; fail). cbn [negb andb].
        destruct (Nat.eqb n 2); cbn [negb]; [|intros Q; injection Q as <-; auto]. destruct (check_numbers_valid _) as [st|e1] eqn:C.
        -- cbn [bind]. repeat match goal with |- context [if ?b then _ else _] => destruct b end; intros Q; try discriminate; injection Q as <-; auto.
        -- cbn [bind]. intros Q. injection Q as <-. revert C. unfold check_numbers_valid. destruct b; repeat match goal with |- context [if ?b then _ else _] => destruct b end; intros C; try discriminate; injection C as <-; auto.
    + destruct (is_kind k k'); [discriminate|]. injection H as <-. auto.
Qed.

(** Curves of the same length written as a matrix, and the matrix read by the
    constructor of the same class, give the curves back (the filler must not be
    negative). *)
Theorem C97_file_round_trip : forall k f cs m, cs <> [] -> 0 <= f -> Forall (fun c => length c = m) cs -> Forall (admissible k) cs ->
  exists M, curve_matrix k f cs = Ok M /\ curves_init k (FromFile (Ok (as_array (length cs) M))) = Ok cs.
Proof.
  intros k f cs m Hne Hf HF HA. destruct (matrix_same k f cs m Hne HF) as (M & EM & LM & HM). exists M. split; [exact EM|].
  destruct (same_cells k f cs m M HF LM HM) as [Lr Hc]. cbn [curves_init bind]. unfold as_array.
  assert (Hok : cells_ok true (map (map Fin) M)).
  { unfold cells_ok. apply Forall_map, Forall_forall. intros r Hr. apply (In_nth _ _ []) in Hr as (i & Hi & <-). rewrite HM by lia. apply Forall_map, Forall_forall.
    intros x Hx. apply in_concat in Hx as (q & Hq & Hx). apply in_map_iff in Hq as (c & <- & Hcin). exists x. split; [reflexivity|].
    rewrite Forall_forall in HA, HF. pose proof (HF c Hcin) as Lc. specialize (HA c Hcin). unfold admissible in HA. rewrite Forall_forall in HA. specialize (HA (nth i c (0, 0)) ltac:(apply nth_In; lia)).
    destruct k; cbn in Hx; intuition lra. }
  rewrite (extract_ok true (length cs) (map (map Fin) M) Hok). cbn [bind].
  assert (Hcol : forall l, (l < length cs)%nat -> cols (4 * l + 2 * (value_col k / 2)) (4 * l + 2 * (value_col k / 2) + 2) (map (map Fin) M) = pairs (nth l cs [])).
  { intros l Hl. pose proof (proj1 (Forall_forall _ _) HF (nth l cs []) (nth_In _ _ Hl)) as Ll. cbv beta in Ll. apply cols_pairs; [rewrite map_length; exact (eq_trans LM (eq_sym Ll))|].
    rewrite Ll. intros i Hi. rewrite Lr by exact Hi. split; [destruct k; cbn; lia|].
    rewrite <- Nat.add_assoc. rewrite !Hc by (try assumption; destruct k; cbn; lia).
    destruct (value_pair k f (nth i (nth l cs []) (0, 0))) as [A B]. split; f_equal; [exact A|exact B]. }
  assert (Hread : forall l, (l < length cs)%nat -> curve_of k (PArr true (A2 2 (pairs (nth l cs [])))) = Ok (nth l cs [])).
  { intros l Hl. apply curve_of_pairs. rewrite Forall_forall in HA. apply HA, nth_In, Hl. }
  destruct k; cbn [pick fst snd].
  - apply (map_res_seq (fun k => cols (4 * k) (4 * k + 2) (map (map Fin) M)) _ cs [] (length cs) eq_refl).
    intros l Hl. pose proof (Hcol l Hl) as E. change (2 * (value_col KG / 2))%nat with 0%nat in E. rewrite !Nat.add_0_r in E. rewrite E. apply Hread, Hl.
  - apply (map_res_seq (fun k => cols (4 * k + 2) (4 * k + 4) (map (map Fin) M)) _ cs [] (length cs) eq_refl).
    intros l Hl. pose proof (Hcol l Hl) as E. change (2 * (value_col KD / 2))%nat with 2%nat in E. rewrite <- Nat.add_assoc in E. change (2 + 2)%nat with 4%nat in E. rewrite E. apply Hread, Hl.
Qed.

(** ** Both properties *)

(** The constructor: exactly one argument; a two-element tuple of the two classes,
    in this order, with as many layers; or a two-dimensional array (given or read
    from a file) whose number of columns is a multiple of four. *)
Theorem C97_construct_iff : forall p d b, both_init p d = Ok b <->
  (exists gs ds, p = Tuple [PCurves KG gs; PCurves KD ds] /\ d = NoData /\ length gs = length ds /\ b = Pair gs ds) \/
  (exists nm c rows, p = NoPair /\ (d = DataArray (PArr nm (A2 c rows)) \/ d = DataFile (Ok (PArr nm (A2 c rows)))) /\ (c mod 4 = 0)%nat /\ b = Matrix nm c rows).
Proof.
  intros p d b. split.
  - destruct p as [| |l], d as [|o|r]; cbn [both_init]; try discriminate.
    + destruct o as [x|nm a|]; cbn [bind]; try discriminate. destruct a as [x|a|c rows|? ? ?]; cbn [assert_2D_numpy_array bind]; try discriminate.
      destruct (Nat.eqb_spec (c mod 4) 0) as [E|E]; cbn [negb]; [|discriminate]. intros H; injection H as <-. right. exists nm, c, rows. auto.
    + destruct r as [o|e]; cbn [bind]; [|discriminate]. destruct o as [x|nm a|]; cbn [assert_2D_numpy_array bind]; try discriminate. destruct a as [x|a|c rows|? ? ?]; cbn [assert_2D_numpy_array bind]; try discriminate.
      destruct (Nat.eqb_spec (c mod 4) 0) as [E|E]; cbn [negb]; [|discriminate]. intros H; injection H as <-. right. exists nm, c, rows. auto.
    + destruct l as [|a [|a2 [|]]]; cbn [length Nat.eqb negb nth last]; try discriminate.
      destruct a as [[|] gs|]; try discriminate. destruct a2 as [[|] ds|]; try discriminate.
      destruct (Nat.eqb_spec (length gs) (length ds)) as [E|E]; [|discriminate]. intros H; injection H as <-. left. exists gs, ds. auto.
  - intros [(gs & ds & -> & -> & E & ->)|(nm & c & rows & -> & [ -> | -> ] & E & ->)].
    + cbn. rewrite (proj2 (Nat.eqb_eq _ _) E). reflexivity.
    + cbn [both_init bind assert_2D_numpy_array]. rewrite (proj2 (Nat.eqb_eq _ _) E). reflexivity.
    + cbn [both_init bind assert_2D_numpy_array]. rewrite (proj2 (Nat.eqb_eq _ _) E). reflexivity.
Qed.

(** Which exception: both or neither argument, a tuple of another length, layer
    counts that differ and bad column counts are [ValueError]; wrong types are
    [TypeError]. *)
Theorem C97_construct_errors : forall l gs ds o,
  both_init NoPair NoData = Err ValueError /\
  (forall p d, p <> NoPair -> d <> NoData -> both_init p d = Err ValueError) /\
  both_init NotTuple NoData = Err TypeError /\
  (length l <> 2%nat -> both_init (Tuple l) NoData = Err ValueError) /\
  both_init (Tuple [PCurves KD ds; PCurves KG gs]) NoData = Err TypeError /\
  (length gs <> length ds -> both_init (Tuple [PCurves KG gs; PCurves KD ds]) NoData = Err ValueError) /\
  both_init NoPair (DataArray POther) = Err TypeError /\
  both_init NoPair (DataArray (PArr true (A1 o))) = Err TypeError /\
  both_init NoPair (DataFile (Ok (PArr true (A1 o)))) = Err TypeError /\
  (forall nm c rows, (c mod 4 <> 0)%nat -> both_init NoPair (DataArray (PArr nm (A2 c rows))) = Err ValueError).
Proof.
  intros l gs ds o. split; [reflexivity|]. split; [intros [| |] [| |] Hp Hd; try congruence; reflexivity|]. split; [reflexivity|].
  split; [intros H; cbn; rewrite (proj2 (Nat.eqb_neq _ _) H); reflexivity|]. split; [reflexivity|].
  split; [intros H; cbn; rewrite (proj2 (Nat.eqb_neq _ _) H); reflexivity|]. split; [reflexivity|]. split; [reflexivity|]. split; [reflexivity|].
  intros nm c rows H. cbn [both_init bind assert_2D_numpy_array]. rewrite (proj2 (Nat.eqb_neq _ _) H). reflexivity.
Qed.

(** A pair is accepted whatever the lengths of its curves, but its matrix exists
    only when the longest G/Gmax curve and the longest damping curve have the same
    number of samples. *)
Theorem C97_pair_matrix_iff : forall gs ds mg md G D, length gs = length ds -> longest mg gs -> longest md ds ->
  curve_matrix KG 1 gs = Ok G -> curve_matrix KD 1 ds = Ok D ->
  (mg = md -> exists M, both_matrix (Pair gs ds) = Ok ((4 * length gs)%nat, M) /\ length M = mg /\
     forall i l, (i < mg)%nat -> (l < length gs)%nat ->
       slice (4 * l) (4 * l + 2) (nth i M []) = map Fin (slice (4 * l) (4 * l + 2) (nth i G [])) /\
     slice (4 * l + 2) (4 * l + 4) (nth i M []) = map Fin (slice (4 * l + 2) (4 * l + 4) (nth i D []))) /\
  (mg <> md -> both_matrix (Pair gs ds) = Err ValueError).
Proof.
  intros gs ds mg md G D HL Hg Hd EG ED. destruct (longest_unique _ _ Hg) as [Ng Eg]. destruct (longest_unique _ _ Hd) as [Nd Ed].
  pose proof (matrix_spec KG 1 gs Ng) as SG. pose proof (matrix_spec KD 1 ds Nd) as SD. rewrite <- Eg in SG. rewrite <- Ed in SD.
  destruct (map_res (resample mg) gs) as [gs'|] eqn:Rg; [|congruence]. destruct (map_res (resample md) ds) as [ds'|] eqn:Rd; [|congruence].
  destruct SG as (G' & EG' & LG & HG). destruct SD as (D' & ED' & LD & HD). rewrite EG in EG'. injection EG' as <-. rewrite ED in ED'. injection ED' as <-.
  apply map_res_Forall2, (fun H => Forall2_nth _ _ _ [] [] H) in Rg as [Lg _]. apply map_res_Forall2, (fun H => Forall2_nth _ _ _ [] [] H) in Rd as [Ld _].
  cbn [both_matrix]. rewrite EG, ED. cbn [bind]. unfold as_array. rewrite <- HL.
  assert (Hn : (1 <= length gs)%nat) by (destruct gs; [congruence|cbn; lia]). split.
  - intros E. destruct (merge_spec (length gs) true true (map (map Fin) G) (map (map Fin) D) Hn) as (M & EM & LM & HM); [rewrite !map_length; lia|].
    exists M. split; [exact EM|]. rewrite map_length in LM, HM. split; [lia|]. intros i l Hi Hl. rewrite HM by lia. rewrite !finmat_row by lia.
    assert (LGi : length (map Fin (nth i G [])) = (4 * length gs)%nat) by (rewrite map_length, HG by lia; rewrite concat4_length by (intros; apply cell4_length); rewrite Lg; reflexivity).
    assert (LDi : length (map Fin (nth i D [])) = (4 * length gs)%nat) by (rewrite map_length, HD by lia; rewrite concat4_length by (intros; apply cell4_length); rewrite Ld, HL; reflexivity).
    rewrite (merged_row_GG _ _ (length gs) LGi LDi) by lia. rewrite (merged_row_xi _ _ (length gs) LGi LDi) by lia.
    unfold slice. rewrite !skipn_map, !firstn_map. auto.
  - intros E. unfold merge_curve_matrices. cbn [assert_2D_numpy_array bind]. rewrite !Nat.eqb_refl, !map_length.
    replace ((4 * length gs) mod 4)%nat with 0%nat by (rewrite Nat.mul_comm, Nat.mod_mul; lia). cbn [Nat.eqb negb]. rewrite (proj2 (Nat.eqb_neq (length G) (length D))) by lia. reflexivity.
Qed.

Lemma firstn_plus {A} a b (l : list A) : firstn (a + b) l = firstn a l ++ firstn b (skipn a l).
Proof. revert l; induction a as [|a IH]; intros [|x l]; cbn; [reflexivity|reflexivity|rewrite firstn_nil; reflexivity|]. rewrite IH. reflexivity. Qed.
Lemma skipn_plus {A} a b (l : list A) : skipn b (skipn a l) = skipn (a + b) l.
Proof. revert l; induction a as [|a IH]; intros [|x l]; cbn; [reflexivity|reflexivity|apply skipn_nil|apply IH]. Qed.

Lemma merged_same n r : merged_row n r r = firstn (4 * n) r.
Proof.
  unfold merged_row. induction n as [|n IH]; [reflexivity|]. rewrite seq_S, map_app, concat_app, IH. cbn [map concat Nat.add]. rewrite app_nil_r.
  replace (4 * S n)%nat with (4 * n + (2 + 2))%nat by lia. rewrite firstn_plus. f_equal. rewrite firstn_plus, skipn_plus. unfold slice. f_equal; f_equal; lia.
Qed.
Lemma merged_rebuild n a b r : length r = (4 * n)%nat ->
  (forall l, (l < n)%nat -> slice (4 * l) (4 * l + 2) a = slice (4 * l) (4 * l + 2) r /\ slice (4 * l + 2) (4 * l + 4) b = slice (4 * l + 2) (4 * l + 4) r) ->
  merged_row n a b = r.
Proof.
  intros HL H. transitivity (merged_row n r r); [|rewrite merged_same, <- HL; apply firstn_all].
  unfold merged_row. f_equal. apply map_ext_in. intros l Hl. apply in_seq in Hl. destruct (H l) as [A B]; [lia|]. rewrite A, B. reflexivity.
Qed.

(** The objects obtained from a matrix: they exist exactly when the array is
    numeric and every layer is an admissible pair of curves (finite, not negative,
    G/Gmax at most 1, damping at most 100 percent), although the constructor takes
    any array with the right number of columns. *)
Theorem C97_objects_iff : forall nm n rows gs ds, (1 <= n)%nat -> Forall (fun r => length r = (4 * n)%nat) rows ->
  (both_objects (Matrix nm (4 * n) rows) = Ok (gs, ds) <->
   nm = true /\ length gs = n /\ length ds = n /\
   forall l, (l < n)%nat ->
     admissible KG (nth l gs []) /\ admissible KD (nth l ds []) /\
     cols (4 * l) (4 * l + 2) rows = pairs (nth l gs []) /\ cols (4 * l + 2) (4 * l + 4) rows = pairs (nth l ds [])).
Proof.
  intros nm n rows gs ds Hn HL.
  assert (L2 : forall l, (l < n)%nat -> Forall (fun r => length r = 2%nat) (cols (4 * l) (4 * l + 2) rows) /\ Forall (fun r => length r = 2%nat) (cols (4 * l + 2) (4 * l + 4) rows)).
  { intros l Hl. unfold cols. rewrite !Forall_map. rewrite Forall_forall in HL. split; apply Forall_forall; intros r Hr; rewrite slice_length, (HL r Hr); lia. }
  split.
  - cbn [both_objects]. intros E.
    assert (Ex : exists p, extract_from_curve_format (PArr nm (A2 (4 * n) rows)) false = Ok p) by (destruct (extract_from_curve_format _ false) as [p|]; [eauto|discriminate]).
    destruct (proj1 (C36_extract_accepts_iff nm false n rows Hn HL) Ex) as [-> Hok]. split; [reflexivity|].
    rewrite (extract_ok false n rows Hok) in E. cbn [bind fst snd] in E.
    destruct (map_res (fun r => curve_of KG _) _) as [gs'|] eqn:Eg; [|discriminate]. cbn [bind] in E.
    destruct (map_res (fun r => curve_of KD _) _) as [ds'|] eqn:Ed; [|discriminate]. cbn [bind] in E. injection E as -> ->.
    apply map_res_Forall2, (fun H => Forall2_nth _ _ _ [] [] H) in Eg as [Lg Hg]. apply map_res_Forall2, (fun H => Forall2_nth _ _ _ [] [] H) in Ed as [Ld Hd].
    rewrite map_length, seq_length in Lg, Ld, Hg, Hd. split; [exact Lg|]. split; [exact Ld|]. intros l Hl. specialize (Hg l Hl). specialize (Hd l Hl).
    assert (Eq : forall (f : nat -> list (list num)), nth l (map f (seq 0 n)) [] = f l).
    { intros f. rewrite (nth_indep _ [] (f 0%nat)) by (rewrite map_length, seq_length; exact Hl). rewrite map_nth, seq_nth by exact Hl. reflexivity. }
    cbv beta in Hg, Hd. rewrite Eq in Hg, Hd. destruct (L2 l Hl) as [A B]. apply (curve_of_ok_iff KG _ _ A) in Hg as [Hg1 Hg2]. apply (curve_of_ok_iff KD _ _ B) in Hd as [Hd1 Hd2]. auto.
  - intros (-> & Lg & Ld & H). cbn [both_objects].
    assert (Hok : cells_ok false rows).
    { apply (proj1 (C36_extract_accepts_iff true false n rows Hn HL)). cbn [extract_from_curve_format].
      replace ((4 * n) mod 4)%nat with 0%nat by (rewrite Nat.mul_comm, Nat.mod_mul; lia). cbn [Nat.eqb negb].
      replace (4 * n / 4)%nat with n by (rewrite Nat.mul_comm, Nat.div_mul; lia).
      assert (X : forall m j, (j + m <= n)%nat -> exists o, extract_loop true false rows j m = Ok o).
      { induction m as [|m IH]; intros j Hj; [eexists; reflexivity|]. cbn [extract_loop].
        destruct (H j ltac:(lia)) as (A & B & C & D). replace (j * 4 + 0)%nat with (4 * j)%nat by lia. replace (j * 4)%nat with (4 * j)%nat by lia. rewrite C, D.
        assert (K : forall k c, admissible k c -> check_two_column_format (PArr true (A2 2 (pairs c))) false false = Ok tt).
        { intros k c Hc. apply check_two_column_format_spec. exists 2%nat, (pairs c). split; [reflexivity|]. split; [reflexivity|]. split; [|discriminate].
          unfold pairs. apply Forall_map, Forall_forall. intros p _. repeat constructor; eexists; reflexivity. }
        rewrite (K KG _ A), (K KD _ B). cbn [bind]. destruct (IH (S j) ltac:(lia)) as [o E]. rewrite E. eexists. reflexivity. }
      apply X. lia. }
    rewrite (extract_ok false n rows Hok). cbn [bind fst snd].
    rewrite (map_res_seq (fun k => cols (4 * k) (4 * k + 2) rows) _ gs [] n Lg); [cbn [bind]|].
    + rewrite (map_res_seq (fun k => cols (4 * k + 2) (4 * k + 4) rows) _ ds [] n Ld); [reflexivity|].
      intros l Hl. destruct (H l Hl) as (A & B & C & D). rewrite D. apply curve_of_pairs, B.
    + intros l Hl. destruct (H l Hl) as (A & B & C & D). rewrite C. apply curve_of_pairs, A.
Qed.

(** From a matrix to objects and back to a matrix: the same matrix. *)
Theorem C97_matrix_objects_matrix : forall nm n rows gs ds, (1 <= n)%nat -> Forall (fun r => length r = (4 * n)%nat) rows ->
  both_objects (Matrix nm (4 * n) rows) = Ok (gs, ds) ->
  both_layers (Matrix nm (4 * n) rows) = n /\ both_layers (Pair gs ds) = n /\
  both_matrix (Matrix nm (4 * n) rows) = Ok ((4 * n)%nat, rows) /\ both_matrix (Pair gs ds) = Ok ((4 * n)%nat, rows).
Proof.
  intros nm n rows gs ds Hn HL E. apply (C97_objects_iff nm n rows gs ds Hn HL) in E as (-> & Lg & Ld & H). unfold vcurve in *.
  split; [cbn [both_layers]; rewrite Nat.mul_comm, Nat.div_mul; lia|]. split; [exact Lg|]. split; [reflexivity|].
  assert (Len : forall l, (l < n)%nat -> length (nth l gs []) = length rows /\ length (nth l ds []) = length rows).
  { intros l Hl. destruct (H l Hl) as (_ & _ & C & D). split; [rewrite <- (cols_length (4 * l) (4 * l + 2) rows), C|rewrite <- (cols_length (4 * l + 2) (4 * l + 4) rows), D]; unfold pairs; rewrite map_length; reflexivity. }
  assert (Fg : Forall (fun c => length c = length rows) gs) by (apply Forall_forall; intros c Hc; apply (In_nth _ _ []) in Hc as (l & Hl & <-); apply Len; rewrite <- Lg; exact Hl).
  assert (Fd : Forall (fun c => length c = length rows) ds) by (apply Forall_forall; intros c Hc; apply (In_nth _ _ []) in Hc as (l & Hl & <-); apply Len; rewrite <- Ld; exact Hl).
  assert (Ng : gs <> []) by (destruct gs; [cbn in Lg; lia|discriminate]). assert (Nd : ds <> []) by (destruct ds; [cbn in Ld; lia|discriminate]).
  destruct (matrix_same KG 1 gs (length rows) Ng Fg) as (G & EG & LG & HG). destruct (matrix_same KD 1 ds (length rows) Nd Fd) as (D & ED & LD & HD).
  cbn [both_matrix]. rewrite EG, ED. cbn [bind]. unfold as_array, vcurve. rewrite Lg, Ld.
  destruct (merge_spec n true true (map (map Fin) G) (map (map Fin) D) Hn) as (M & EM & LM & HM); [rewrite !map_length; lia|]. rewrite EM. f_equal. f_equal.
  rewrite map_length in LM, HM.
  destruct (same_cells KG 1 gs (length rows) G Fg LG HG) as [LGr HGc]. destruct (same_cells KD 1 ds (length rows) D Fd LD HD) as [LDr HDc].
  apply (list_ext []); [rewrite LM; exact LG|]. intros i Hi. rewrite LM, LG in Hi. rewrite HM by (rewrite LG; exact Hi).
  assert (Li : length (nth i rows []) = (4 * n)%nat) by (rewrite Forall_forall in HL; apply HL, nth_In, Hi).
  apply merged_rebuild; [exact Li|]. intros l Hl. destruct (H l Hl) as (_ & _ & C & Dd). destruct (Len l Hl) as [Ll1 Ll2].
  assert (Pn : forall c, (i < length c)%nat -> nth i (pairs c) [] = [Fin (fst (nth i c (0, 0))); Fin (snd (nth i c (0, 0)))]).
  { intros c Hc. unfold pairs. rewrite (nth_indep _ [] ((fun p : R * R => [Fin (fst p); Fin (snd p)]) (0, 0))) by (rewrite map_length; exact Hc). exact (map_nth (fun p : R * R => [Fin (fst p); Fin (snd p)]) c (0, 0) i). }
  split.
  - rewrite <- (cols_nth (4 * l) (4 * l + 2) rows i), C, Pn by (rewrite Ll1; exact Hi). rewrite (slice2 NaN) by (rewrite LGr by exact Hi; lia).
    rewrite <- (Nat.add_0_r (4 * l)) at 1. rewrite !HGc by lia. reflexivity.
  - rewrite <- (cols_nth (4 * l + 2) (4 * l + 4) rows i), Dd, Pn by (rewrite Ll2; exact Hi). replace (4 * l + 4)%nat with (4 * l + 2 + 2)%nat by lia. rewrite (slice2 NaN) by (rewrite LDr by exact Hi; lia).
    rewrite <- Nat.add_assoc. rewrite !HDc by lia. reflexivity.
Qed.

(** From objects with curves of one length to a matrix and back: the same objects. *)
Theorem C97_objects_matrix_objects : forall gs ds m, gs <> [] -> length gs = length ds ->
  Forall (fun c => length c = m) gs -> Forall (fun c => length c = m) ds -> Forall (admissible KG) gs -> Forall (admissible KD) ds ->
  exists rows, both_matrix (Pair gs ds) = Ok ((4 * length gs)%nat, rows) /\
    both_objects (Matrix true (4 * length gs) rows) = Ok (gs, ds).
Proof.
  intros gs ds m Ng HLn Fg Fd Ag Ad. unfold vcurve in *. assert (Nd : ds <> []) by (destruct ds; [destruct gs; [congruence|discriminate]|discriminate]).
  assert (Hn : (1 <= length gs)%nat) by (destruct gs; [congruence|cbn; lia]).
  destruct (matrix_same KG 1 gs m Ng Fg) as (G & EG & LG & HG). destruct (matrix_same KD 1 ds m Nd Fd) as (D & ED & LD & HD).
  cbn [both_matrix]. rewrite EG, ED. cbn [bind]. unfold as_array, vcurve. rewrite <- HLn.
  destruct (merge_spec (length gs) true true (map (map Fin) G) (map (map Fin) D) Hn) as (M & EM & LM & HM); [rewrite !map_length; lia|]. exists M. split; [exact EM|].
  rewrite map_length in LM, HM.
  destruct (same_cells KG 1 gs m G Fg LG HG) as [LGr HGc]. destruct (same_cells KD 1 ds m D Fd LD HD) as [LDr HDc]. rewrite <- HLn in LDr.
  assert (Lrow : forall i, (i < m)%nat -> length (nth i M []) = (4 * length gs)%nat) by (intros i Hi; rewrite HM by lia; apply (merged_row_length _ _ (length gs) (LGr i Hi) (LDr i Hi)); lia).
  apply C97_objects_iff; [exact Hn| |].
  { apply Forall_forall. intros r Hr. apply (In_nth _ _ []) in Hr as (i & Hi & <-). apply Lrow. lia. }
  split; [reflexivity|]. split; [reflexivity|]. split; [exact (eq_sym HLn)|]. intros l Hl. unfold vcurve in *.
  rewrite Forall_forall in Fg, Fd, Ag, Ad. assert (Hl2 : (l < length ds)%nat) by lia.
  pose proof (Fg _ (nth_In gs [] Hl)) as L1. pose proof (Fd _ (nth_In ds [] Hl2)) as L2. cbv beta in L1, L2.
  split; [apply Ag, nth_In, Hl|]. split; [apply Ad, nth_In, Hl2|]. split.
  - apply (list_ext []); [rewrite cols_length; unfold pairs; rewrite map_length; exact (eq_trans LM (eq_trans LG (eq_sym L1)))|]. rewrite cols_length. intros i Hi. assert (Him : (i < m)%nat) by lia.
    rewrite cols_nth, HM by lia. rewrite (merged_row_GG _ _ (length gs) (LGr i Him) (LDr i Him)) by lia.
    rewrite <- (cols_nth (4 * l) (4 * l + 2)). f_equal. apply cols_pairs; [rewrite map_length; exact (eq_trans LG (eq_sym L1))|]. rewrite L1. intros j Hj. rewrite LGr by exact Hj. split; [lia|].
    rewrite <- (Nat.add_0_r (4 * l)) at 1. rewrite !HGc by lia. split; reflexivity.
  - apply (list_ext []); [rewrite cols_length; unfold pairs; rewrite map_length; exact (eq_trans LM (eq_trans LG (eq_sym L2)))|]. rewrite cols_length. intros i Hi. assert (Him : (i < m)%nat) by lia.
    rewrite cols_nth, HM by lia. rewrite (merged_row_xi _ _ (length gs) (LGr i Him) (LDr i Him)) by lia.
    rewrite <- (cols_nth (4 * l + 2) (4 * l + 4)). f_equal. replace (4 * l + 4)%nat with (4 * l + 2 + 2)%nat by lia. apply cols_pairs; [rewrite map_length; exact (eq_trans LD (eq_sym L2))|]. rewrite L2. intros j Hj. rewrite LDr by exact Hj. split; [lia|].
    rewrite <- Nat.add_assoc. rewrite !HDc by lia. split; reflexivity.
Qed.

Example C97_instance : let c1 := [(1/10, 1); (1, 1/2); (10, 1/10)] in let c2 := [(1/10, 1); (10, 1/2)] in
  longest 3 [c1; c2] /\ Forall ordered [c1; c2] /\ Forall (admissible KG) [c1; c2] /\ (forall c, In c [c1; c2] -> (length c < 3)%nat -> 0 < fst (nth 0 c (0, 0))).
Proof.
  cbv zeta. split; [split; [intros c [<-|[<-|[]]]; cbn; lia|eexists; split; [left; reflexivity|reflexivity]]|].
  split; [|split].
  - repeat constructor; cbn; try discriminate; try lra.
    + intros [|[|k]] Hk; cbn in *; try lra; lia.
    + intros [|k] Hk; cbn in *; try lra; lia.
  - repeat constructor; cbn; lra.
  - intros c [<-|[<-|[]]] H; cbn in *; [lia|lra].
Qed.
