(** Lemmas about curve matrices. *)
From Coq Require Import Reals List Bool ZArith Lia Lra.
From Verif Require Import Base M_generic M_profile M_motion M_soil M_interp M_dampcal M_hhcal M_curvemat P_generic P_soil P_interp P_hhcal.
Import ListNotations.
Open Scope R_scope.

(** ** Extremes *)
Lemma min_of_le x l : min_of x l <= x /\ (forall y, In y l -> min_of x l <= y) /\ In (min_of x l) (x :: l).
Proof.
  unfold min_of. revert x; induction l as [|a l IH]; intros x; cbn [fold_left].
  - split; [lra|]. split; [intros y []|left; reflexivity].
  - destruct (IH (Rmin x a)) as (A & B & C). pose proof (Rmin_l x a). pose proof (Rmin_r x a). split; [lra|]. split.
    + intros y [<-|Hy]; [lra|apply B, Hy].
    + destruct C as [C|C]; [|right; right; exact C]. rewrite <- C. unfold Rmin. destruct (Rle_dec x a); [left|right; left]; reflexivity.
Qed.
Lemma max_of_ge x l : x <= max_of x l /\ (forall y, In y l -> y <= max_of x l) /\ In (max_of x l) (x :: l).
Proof.
  unfold max_of. revert x; induction l as [|a l IH]; intros x; cbn [fold_left].
  - split; [lra|]. split; [intros y []|left; reflexivity].
  - destruct (IH (Rmax x a)) as (A & B & C). pose proof (Rmax_l x a). pose proof (Rmax_r x a). split; [lra|]. split.
    + intros y [<-|Hy]; [lra|apply B, Hy].
    + destruct C as [C|C]; [|right; right; exact C]. rewrite <- C. unfold Rmax. destruct (Rle_dec x a); [right; left|left]; reflexivity.
Qed.

Lemma max_length_spec cs : (forall c, In c cs -> (length c <= max_length cs)%nat) /\
  (cs <> [] -> exists c, In c cs /\ length c = max_length cs).
Proof.
  unfold max_length. split.
  - intros c Hc. pose proof (proj1 (list_max_le (map (@length (R * R)) cs) (list_max (map (@length (R * R)) cs))) (le_n _)) as H.
    rewrite Forall_map, Forall_forall in H. apply H, Hc.
  - induction cs as [|c cs IH]; [congruence|]. intros _. cbn [map list_max fold_right]. fold (list_max (map (@length (R * R)) cs)).
    destruct (le_lt_dec (list_max (map (@length (R * R)) cs)) (length c)) as [H|H].
    + exists c. split; [left; reflexivity|]. lia.
    + destruct cs as [|c2 cs2]; [cbn in H; lia|]. destruct IH as (c' & Hin & E); [discriminate|]. exists c'. split; [right; exact Hin|]. lia.
Qed.

(** ** Resampling *)
Lemma geomspace_length a b n : length (geomspace a b n) = n.
Proof. unfold geomspace. rewrite map_length. apply P_interp.linspace_length. Qed.

Lemma resample_length m c c' : resample m c = Ok c' -> length c' = m.
Proof.
  unfold resample. destruct (Nat.eqb_spec (length c) m) as [E|E]; [intros H; injection H as <-; exact E|].
  destruct (map fst c) as [|x xs]; [discriminate|]. destruct (_ || _); [discriminate|]. destruct (np_interp c _) as [ys|e] eqn:Ey; [|discriminate].
  cbn [bind]. intros H; injection H as <-. destruct c as [|p c]; [discriminate|]. destruct (np_interp_ok (p :: c) (geomspace (min_of x xs) (max_of x xs) m)) as (ys' & E' & L & _); [discriminate|].
  rewrite Ey in E'. injection E' as <-. rewrite combine_length, L, geomspace_length. lia.
Qed.

Definition nonneg_strains (c : vcurve) : Prop := Forall (fun p => 0 <= fst p) c.

Lemma resample_ok_iff m c : nonneg_strains c ->
  (exists c', resample m c = Ok c') <-> (length c = m \/ (c <> [] /\ Forall (fun p => fst p <> 0) c)).
Proof.
  intros Hn. unfold resample. destruct (Nat.eqb_spec (length c) m) as [E|E]; [split; eauto|].
  destruct c as [|p c]; [cbn; split; [intros [? H]; discriminate|intros [H|[H _]]; [destruct (E H)|destruct (H eq_refl)]]|].
  cbn [map]. destruct (min_of_le (fst p) (map fst c)) as (A & B & C). destruct (max_of_ge (fst p) (map fst c)) as (A' & B' & C').
  set (lo := min_of (fst p) (map fst c)) in *. set (hi := max_of (fst p) (map fst c)) in *. clearbody lo hi.
  assert (In0 : forall y, In y (fst p :: map fst c) -> 0 <= y).
  { intros y Hy. change (fst p :: map fst c) with (map fst (p :: c)) in Hy. apply in_map_iff in Hy as (q & <- & Hq). unfold nonneg_strains in Hn. rewrite Forall_forall in Hn. apply Hn, Hq. }
  split.
  - intros [c' H]. right. split; [discriminate|]. destruct (Reqb_spec lo 0) as [|Hlo]; [discriminate|]. apply Forall_forall. intros q Hq.
    assert (Hle : lo <= fst q) by (destruct Hq as [<-|Hq]; [exact A|apply B, in_map, Hq]). pose proof (In0 lo C). lra.
  - intros [H|[_ H]]; [congruence|].
    assert (lo <> 0 /\ hi <> 0) as [Hlo Hhi].
    { change (fst p :: map fst c) with (map fst (p :: c)) in C, C'. apply in_map_iff in C as (q & <- & Hq). apply in_map_iff in C' as (q' & <- & Hq').
      rewrite Forall_forall in H. split; apply H; assumption. }
    rewrite (proj2 (Reqb_false lo 0) Hlo), (proj2 (Reqb_false hi 0) Hhi). cbn [orb].
    destruct (np_interp_ok (p :: c) (geomspace lo hi m)) as (ys & Ey & _); [discriminate|]. rewrite Ey. cbn [bind]. eauto.
Qed.

Lemma resample_err m c e : resample m c = Err e -> e = ValueError.
Proof.
  unfold resample. destruct (Nat.eqb (length c) m); [discriminate|].
  destruct c as [|p c]; [cbn; congruence|]. cbn [map]. destruct (_ || _); [congruence|].
  match goal with |- context [np_interp _ ?g] => destruct (np_interp_ok (p :: c) g) as (ys & Ey & _); [discriminate|] end. rewrite Ey. discriminate.
Qed.

(** ** The matrix, row by row *)
Definition cell4 (k : kind) (filler : R) (p : R * R) : list R :=
  match k with KG => [fst p; snd p; fst p; filler] | KD => [fst p; filler; fst p; snd p] end.

Lemma block_length k f c : length (block k f c) = length c.
Proof. apply map_length. Qed.
Lemma block_nth k f c i : (i < length c)%nat -> nth i (block k f c) [] = cell4 k f (nth i c (0, 0)).
Proof.
  intros Hi. unfold block. rewrite (nth_indep _ [] (cell4 k f (0, 0))) by (rewrite map_length; exact Hi).
  exact (map_nth (cell4 k f) c (0, 0) i).
Qed.

Lemma stack_spec k f m cs : forall acc, length acc = m ->
  match map_res (resample m) cs with
  | Err e => stack_blocks k f m acc cs = Err e
  | Ok cs' => exists M, stack_blocks k f m acc cs = Ok M /\ length M = m /\
      forall i, (i < m)%nat -> nth i M [] = nth i acc [] ++ concat (map (fun c => cell4 k f (nth i c (0, 0))) cs')
  end.
Proof.
  induction cs as [|c cs IH]; intros acc Ha; cbn [map_res stack_blocks].
  - exists acc. split; [reflexivity|]. split; [exact Ha|]. intros i _. cbn. rewrite app_nil_r. reflexivity.
  - destruct (resample m c) as [c'|e] eqn:E; [|reflexivity]. cbn [bind]. pose proof (resample_length _ _ _ E) as L.
    assert (Lb : length acc = length (block k f c')) by (rewrite block_length; lia).
    specialize (IH (hstack acc (block k f c'))). rewrite hstack_length in IH by exact Lb. specialize (IH Ha).
    destruct (map_res (resample m) cs) as [cs'|e]; [|exact IH]. cbn [bind]. destruct IH as (M & EM & LM & HM). exists M. split; [exact EM|]. split; [exact LM|].
    intros i Hi. rewrite HM by exact Hi. rewrite hstack_nth by (try exact Lb; lia). rewrite block_nth by lia. cbn [map concat]. rewrite app_assoc. reflexivity.
Qed.

Lemma matrix_spec k f cs : cs <> [] ->
  match map_res (resample (max_length cs)) cs with
  | Err e => curve_matrix k f cs = Err e
  | Ok cs' => exists M, curve_matrix k f cs = Ok M /\ length M = max_length cs /\
      forall i, (i < max_length cs)%nat -> nth i M [] = concat (map (fun c => cell4 k f (nth i c (0, 0))) cs')
  end.
Proof.
  destruct cs as [|c cs]; [congruence|]. intros _. unfold curve_matrix. set (m := max_length (c :: cs)). cbn [map_res].
  destruct (resample m c) as [c'|e] eqn:E; [|reflexivity]. cbn [bind]. pose proof (resample_length _ _ _ E) as L.
  pose proof (stack_spec k f m cs (block k f c') ltac:(rewrite block_length; exact L)) as S1.
  destruct (map_res (resample m) cs) as [cs'|e]; [|exact S1]. cbn [bind]. destruct S1 as (M & EM & LM & HM). exists M. split; [exact EM|]. split; [exact LM|].
  intros i Hi. rewrite HM by exact Hi. rewrite block_nth by lia. reflexivity.
Qed.

Lemma concat4_length {A B} (g : A -> list B) l : (forall a, length (g a) = 4%nat) -> length (concat (map g l)) = (4 * length l)%nat.
Proof. intros H. induction l as [|a l IH]; [reflexivity|]. cbn [map concat length]. rewrite app_length, H, IH. lia. Qed.
Lemma concat4_nth {A B} (g : A -> list B) (d : B) (a0 : A) l : (forall a, length (g a) = 4%nat) -> forall k j, (k < length l)%nat -> (j < 4)%nat ->
  nth (4 * k + j) (concat (map g l)) d = nth j (g (nth k l a0)) d.
Proof.
  intros H. induction l as [|a l IH]; intros k j Hk Hj; cbn [length] in *; [lia|]. cbn [map concat].
  destruct k as [|k]; [rewrite app_nth1 by (rewrite H; lia); reflexivity|].
  rewrite app_nth2 by (rewrite H; lia). rewrite H. replace (4 * S k + j - 4)%nat with (4 * k + j)%nat by lia. apply IH; lia.
Qed.
Lemma cell4_length k f p : length (cell4 k f p) = 4%nat.
Proof. destruct k; reflexivity. Qed.

Lemma map_res_Forall2 {A B} (g : A -> res B) l l' : map_res g l = Ok l' <-> Forall2 (fun a b => g a = Ok b) l l'.
Proof.
  revert l'; induction l as [|a l IH]; intros l'; cbn [map_res].
  - split; [intros H; injection H as <-; constructor|intros H; inversion H; reflexivity].
  - destruct (g a) as [b|e] eqn:E; cbn [bind].
    + destruct (map_res g l) as [bs|e] eqn:E2; cbn [bind].
      * split; [intros H; injection H as <-; constructor; [exact E|apply IH; reflexivity]|].
        intros H; inversion H as [|? b' ? l2 Hb Hl]; subst. apply IH in Hl. congruence.
      * split; [discriminate|]. intros H; inversion H as [|? b' ? l2 Hb Hl]; subst. apply IH in Hl. discriminate.
    + split; [discriminate|]. intros H; inversion H as [|? b' ? l2 Hb Hl]; subst. congruence.
Qed.
Lemma map_res_err {A B} (g : A -> res B) (P : exn -> Prop) l e : (forall a e, g a = Err e -> P e) -> map_res g l = Err e -> P e.
Proof.
  intros H. induction l as [|a l IH]; cbn [map_res]; [discriminate|]. destruct (g a) as [b|e1] eqn:E; cbn [bind].
  - destruct (map_res g l) as [bs|e2]; cbn [bind]; [discriminate|]. intros X; injection X as <-. apply IH. reflexivity.
  - intros X; injection X as <-. eapply H; eauto.
Qed.
Lemma map_res_ok_iff {A B} (g : A -> res B) l : (exists l', map_res g l = Ok l') <-> forall a, In a l -> exists b, g a = Ok b.
Proof.
  induction l as [|a l IH]; cbn [map_res].
  - split; [intros _ a []|eauto].
  - destruct (g a) as [b|e] eqn:E; cbn [bind].
    + destruct (map_res g l) as [bs|e] eqn:E2; cbn [bind].
      * split; [|eauto]. intros _ a' [<-|H]; [eauto|]. apply (proj1 IH); eauto.
      * split; [intros [? H]; discriminate|]. intros H. destruct (proj2 IH) as [l' X]; [intros a' Ha; apply H; right; exact Ha|]. discriminate.
    + split; [intros [? H]; discriminate|]. intros H. destruct (H a (or_introl eq_refl)) as [b X]. congruence.
Qed.

Lemma Forall2_nth {A B} (P : A -> B -> Prop) l l' a b : Forall2 P l l' -> length l' = length l /\ forall k, (k < length l)%nat -> P (nth k l a) (nth k l' b).
Proof.
  intros H. induction H as [|x y l l' Hxy H [L IH]]; cbn [length]; [split; [reflexivity|lia]|]. split; [lia|].
  intros [|k] Hk; cbn [nth]; [exact Hxy|apply IH; lia].
Qed.

(** ** Interpolated curves *)
Lemma pl_node c i : (i < length c)%nat -> pl_value c (fst (nth i c (0, 0))) (snd (nth i c (0, 0))).
Proof.
  intros Hi. destruct (Nat.eq_dec (S i) (length c)) as [E|E].
  - apply PL_right; [exact E|lra].
  - pose proof (PL_mid c (fst (nth i c (0, 0))) i 0 ltac:(lia) ltac:(lra)) as X.
    replace ((1 - 0) * snd (nth i c (0, 0)) + 0 * snd (nth (S i) c (0, 0))) with (snd (nth i c (0, 0))) in X by ring. apply X. ring.
Qed.

Lemma incr_lt c i j : incr c -> (i < j)%nat -> (j < length c)%nat -> fst (nth i c (0, 0)) < fst (nth j c (0, 0)).
Proof.
  intros Hi Hij Hj. induction Hij as [|j Hij IH]; [apply Hi; exact Hj|]. eapply Rlt_trans; [apply IH; lia|apply Hi; exact Hj].
Qed.
Lemma incr_le c i j : incr c -> (i <= j)%nat -> (j < length c)%nat -> fst (nth i c (0, 0)) <= fst (nth j c (0, 0)).
Proof. intros Hi Hij Hj. destruct (Nat.eq_dec i j) as [->|Hn]; [lra|]. apply Rlt_le, incr_lt; auto; lia. Qed.

Lemma incr_extremes p c : incr (p :: c) -> min_of (fst p) (map fst c) = fst p /\ max_of (fst p) (map fst c) = fst (nth (length c) (p :: c) (0, 0)).
Proof.
  intros Hi. destruct (min_of_le (fst p) (map fst c)) as (A & B & C). destruct (max_of_ge (fst p) (map fst c)) as (A' & B' & C').
  assert (Hin : forall y, In y (fst p :: map fst c) -> fst p <= y <= fst (nth (length c) (p :: c) (0, 0))).
  { intros y Hy. change (fst p :: map fst c) with (map fst (p :: c)) in Hy. apply in_map_iff in Hy as (q & <- & Hq). apply (In_nth _ _ (0, 0)) in Hq as (i & Hl & <-).
    cbn [length] in Hl. split; [apply (incr_le (p :: c) 0 i); auto; cbn; lia|apply incr_le; auto; cbn; lia]. }
  split; apply Rle_antisym.
  - exact A.
  - apply Hin, C.
  - apply Hin, C'.
  - destruct c as [|q c]; [cbn; exact A'|]. apply B'. change (nth (length (q :: c)) (p :: q :: c) (0, 0)) with (nth (length c) (q :: c) (0, 0)). apply in_map, nth_In. cbn. lia.
Qed.
