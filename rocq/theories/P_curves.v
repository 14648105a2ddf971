(** Lemmas about curve construction and damping fits. *)
From Coq Require Import Reals List Bool ZArith String Lia Lra.
From Verif Require Import Base M_generic M_profile M_vs_profile P_vs_profile M_motion P_motion M_soil M_interp P_interp M_params P_params M_curves.
Import ListNotations.
Open Scope R_scope.
Open Scope list_scope.

(** Both columns multiplied. *)
Definition rescaled (a b : R) (s : signal) : signal := map (fun p => (a * fst p, b * snd p)) s.

Lemma rescaled_1 s : rescaled 1 1 s = s.
Proof. unfold rescaled. rewrite <- (map_id s) at 2. apply map_ext. intros [x y]. cbn. f_equal; lra. Qed.
Lemma rescaled_comp a b a' b' s : rescaled a b (rescaled a' b' s) = rescaled (a * a') (b * b') s.
Proof. unfold rescaled. rewrite map_map. apply map_ext. intros [x y]. cbn. f_equal; lra. Qed.
Lemma scale0_rescaled k s : scale0 k s = rescaled k 1 s.
Proof. unfold scale0, rescaled. apply map_ext. intros [x y]. cbn. f_equal; lra. Qed.
Lemma scale1_rescaled k s : scale1 k s = rescaled 1 k s.
Proof. unfold scale1, rescaled. apply map_ext. intros [x y]. cbn. f_equal; lra. Qed.

(** [only loc s h h']: the heap changed at most at [loc], which now holds [s]. *)
Definition only (loc : nat) (s : signal) (h h' : sheap) : Prop :=
  List.length h' = List.length h /\ sig_at h' loc = s /\ forall l, l <> loc -> sig_at h' l = sig_at h l.

Lemma only_refl h loc : only loc (sig_at h loc) h h.
Proof. repeat split. Qed.
Lemma only_upd h loc f : (loc < List.length h)%nat -> only loc (f (sig_at h loc)) h (upd h loc f).
Proof.
  intros H. unfold upd. split; [apply set_nth_length|]. split; [apply sig_at_set; exact H|].
  intros l Hl. unfold sig_at. apply set_nth_other. auto.
Qed.
Lemma only_trans loc s s' h h1 h2 : only loc s h h1 -> only loc s' h1 h2 -> only loc s' h h2.
Proof. intros (L1 & E1 & O1) (L2 & E2 & O2). split; [lia|]. split; [exact E2|]. intros l Hl. rewrite O2, O1; auto. Qed.

Definition nonneg (s : signal) : Prop := Forall (fun p => 0 <= fst p /\ 0 <= snd p) s.

Lemma neg_cell_false s : existsb neg_cell s = false <-> nonneg s.
Proof.
  unfold nonneg. rewrite Forall_forall. split.
  - intros H p Hp. assert (X : neg_cell p = false).
    { destruct (neg_cell p) eqn:E; [|reflexivity]. rewrite <- H. symmetry. apply existsb_exists. eauto. }
    unfold neg_cell in X. apply orb_false_iff in X as [A B]. apply Rltb_false in A, B. auto.
  - intros H. apply not_true_iff_false. intros E. apply existsb_exists in E as (p & Hp & E). specialize (H p Hp).
    unfold neg_cell in E. apply orb_true_iff in E as [E|E]; apply Rltb_true in E; lra.
Qed.
Lemma neg_cell_true s : existsb neg_cell s = true <-> ~ nonneg s.
Proof. rewrite <- neg_cell_false. destruct (existsb neg_cell s); split; congruence. Qed.

Lemma range_check_false lo hi (l : list R) :
  existsb (fun v => Rltb hi v) l || existsb (fun v => Rltb v lo) l = false <-> Forall (fun v => lo <= v <= hi) l.
Proof.
  rewrite orb_false_iff, Forall_forall. split.
  - intros [A B] v Hv. assert (X : Rltb hi v = false).
    { destruct (Rltb hi v) eqn:E; [|reflexivity]. rewrite <- A. symmetry. apply existsb_exists. eauto. }
    assert (Y : Rltb v lo = false).
    { destruct (Rltb v lo) eqn:E; [|reflexivity]. rewrite <- B. symmetry. apply existsb_exists. eauto. }
    apply Rltb_false in X, Y. lra.
  - intros H. split; apply not_true_iff_false; intros E; apply existsb_exists in E as (v & Hv & E); apply Rltb_true in E; specialize (H v Hv); lra.
Qed.

(** Factors of the unit arguments. *)
Definition per_cent (u : sunit) : R := match u with S1 => 100 | _ => 1 end.
Definition to_kPa (u : tunit) : R := match u with TPa => / 1000 | TMPa => 1000 | TGPa => 1000000 | _ => 1 end.

Lemma curve_init_plain h loc su chk : (loc < List.length h)%nat ->
  (su <> SBad -> (chk = true -> nonneg (sig_at h loc)) ->
     exists h', curve_init h loc su None chk = (h', Ok (mkcurve loc loc)) /\ only loc (rescaled (per_cent su) 1 (sig_at h loc)) h h') /\
  (~ (su <> SBad /\ (chk = true -> nonneg (sig_at h loc))) -> curve_init h loc su None chk = (h, Err ValueError)).
Proof.
  intros Hl. unfold curve_init. split.
  - intros Hs Hc. replace (chk && existsb neg_cell (sig_at h loc)) with false.
    2:{ destruct chk; [|reflexivity]. symmetry. apply neg_cell_false. auto. }
    destruct su; [| |congruence]; cbn [per_cent].
    + eexists. split; [reflexivity|]. rewrite <- scale0_rescaled. apply only_upd, Hl.
    + exists h. split; [reflexivity|]. rewrite rescaled_1. apply only_refl.
  - intros H. destruct (chk && existsb neg_cell (sig_at h loc)) eqn:E; [reflexivity|].
    destruct su; try reflexivity; exfalso; apply H; (split; [discriminate|]); intros ->; cbn in E; apply neg_cell_false, E.
Qed.

(** ** Fits *)
Definition first_damping (s : signal) : R := match s with [] => 0 | p :: _ => snd p end.
Definition offset (s : signal) : signal := map (fun p => (fst p, snd p - first_damping s)) s.
(** What the optimiser is given for a table [s]. *)
Definition fit_data (s : signal) : list (R * R) :=
  match np_interp (map (fun p => (fst p / 100, snd p / 100)) (offset s)) dense_strain with
  | Ok ys => combine dense_strain ys | Err _ => [] end.

Lemma first_offset s : s <> [] -> first_damping (offset s) = 0.
Proof. destruct s as [|p s]; [congruence|]. cbn. intros _. lra. Qed.
Lemma offset_idem s : offset (offset s) = offset s.
Proof.
  destruct s as [|p s]; [reflexivity|]. unfold offset at 1. rewrite first_offset by discriminate.
  rewrite <- (map_id (offset (p :: s))) at 2. apply map_ext. intros [x y]. cbn. f_equal. lra.
Qed.
Lemma fit_data_offset s : fit_data (offset s) = fit_data s.
Proof. unfold fit_data. rewrite offset_idem. reflexivity. Qed.

Lemma fit_prepare_ok h loc : (loc < List.length h)%nat -> nonneg (sig_at h loc) -> sig_at h loc <> [] ->
  exists h', fit_prepare h loc = (h', Ok (fit_data (sig_at h loc))) /\ only loc (offset (sig_at h loc)) h h'.
Proof.
  intros Hl Hn Hne. unfold fit_prepare. rewrite (proj2 (neg_cell_false _) Hn).
  destruct (sig_at h loc) as [|[e0 d0] s] eqn:E; [congruence|].
  set (h1 := upd h loc (map (fun p => (fst p, snd p - d0)))).
  assert (X : only loc (offset (sig_at h loc)) h h1).
  { unfold h1. replace (offset (sig_at h loc)) with (map (fun p => (fst p, snd p - d0)) (sig_at h loc)) by (rewrite E; reflexivity).
    apply only_upd, Hl. }
  exists h1. rewrite E in X. split; [|exact X]. rewrite (proj1 (proj2 X)). unfold fit_data.
  destruct (np_interp_ok (map (fun p => (fst p / 100, snd p / 100)) (offset ((e0, d0) :: s))) dense_strain ltac:(discriminate)) as (ys & Ey & _).
  rewrite Ey. reflexivity.
Qed.

Lemma nonneg_offset s : (nonneg s /\ Forall (fun p => first_damping s <= snd p) s) -> nonneg (offset s).
Proof.
  intros [H1 H2]. unfold nonneg, offset. apply Forall_map. apply Forall_forall. intros p Hp. cbn.
  pose proof (proj1 (Forall_forall _ _) H1 p Hp). pose proof (proj1 (Forall_forall _ _) H2 p Hp). cbn in *. lra.
Qed.
