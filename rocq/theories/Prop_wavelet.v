(** C96: wavelet baseline correction (helper_gof_scores.py:490-537, 905-1015). *)
From Coq Require Import Reals List Bool ZArith Lia Lra String FunctionalExtensionality.
From Verif Require Import Base M_generic P_generic M_motion P_motion M_wavelet P_wavelet.
Import ListNotations.
Open Scope list_scope.
Open Scope R_scope.

(** ** specification *)

(** The record continued periodically. *)
Definition wrapped (x : list R) (z : Z) : R := nth (Z.to_nat (z mod Z.of_nat (List.length x))) x 0.
(** One filtering step at spacing s (backwards for a negative s). *)
Definition filtered (a : list R) (s : Z) (v : Z -> R) (z : Z) : R :=
  rsum (map (fun m => nth m a 0 / sqrt 2 * v (z - s * Z.of_nat m)%Z) (seq 0 (List.length a))).
(** Detail components of n levels, and the remaining trend. *)
Fixpoint details (h g : list R) (s : Z) (n : nat) (v : Z -> R) : list (Z -> R) :=
  match n with
  | O => []
  | S n' => filtered h (- s) (filtered h s v) :: map (filtered g (- s)) (details h g (2 * s) n' (filtered g s v))
  end.
Fixpoint trend (g : list R) (s : Z) (n : nat) (v : Z -> R) : Z -> R :=
  match n with O => v | S n' => filtered g (- s) (trend g (2 * s) n' (filtered g s v)) end.
(** Autocorrelation of the two filters together, at lag k. *)
Definition lagsum (h g : list R) (k : nat) : R :=
  rsum (map (fun l => nth l g 0 * nth (l + k) g 0 + nth l h 0 * nth (l + k) h 0) (seq 0 (List.length g))).
(** Orthogonal wavelets: equal even lengths, and lag sums 2, 0, 0, ... *)
Definition orthogonal (h g : list R) : Prop :=
  List.length h = List.length g /\ forall k, lagsum h g k = if Nat.eqb k 0 then 2 else 0.
Definition usable (h g : list R) : Prop :=
  (1 <= List.length h)%nat /\ (1 <= List.length g)%nat /\ Nat.even (List.length h) = true /\ Nat.even (List.length g) = true.
Definition total (fs : list (Z -> R)) (z : Z) : R := rsum (map (fun f => f z) fs).
Definition value (y : signal) (i : nat) : R := nth i (map snd y) 0.

(** ** lemmas *)
Lemma cv_sum a s v z : forall M, (List.length a <= M)%nat -> cv a s v z = rsum (map (fun m => nth m a 0 * v (z - s * Z.of_nat m)%Z) (seq 0 M)).
Proof.
  revert z. induction a as [|x a IH]; intros z M HM.
  - cbn [cv]. symmetry. induction (seq 0 M) as [|i l IHl]; [reflexivity|]. cbn [map rsum]. rewrite IHl. destruct i; cbn [nth]; ring.
  - destruct M as [|M]; [cbn in HM; lia|]. cbn [cv seq map rsum]. rewrite <- seq_shift, map_map. f_equal; [cbn [nth]; f_equal; f_equal; lia|].
    rewrite (IH (z - s)%Z M) by (cbn in HM; lia). f_equal. apply map_ext. intros m. cbn [nth]. do 2 f_equal. lia.
Qed.
Lemma filtered_fl a s v : filtered a s v = fl a s v.
Proof.
  apply functional_extensionality. intros z. unfold filtered, fl. rewrite (cv_sum a s v z (List.length a) (Nat.le_refl _)).
  generalize (seq 0 (List.length a)). intros l. induction l as [|m l IH]; cbn [map rsum]; [unfold Rdiv; ring|]. rewrite IH. unfold Rdiv. ring.
Qed.
Lemma dets_split h g n : forall s v, dets h g s n v = details h g s n v ++ [trend g s n v].
Proof.
  induction n as [|n IH]; intros s v; [reflexivity|]. cbn [dets details trend]. rewrite IH, map_app. cbn [map app]. rewrite !filtered_fl. f_equal. f_equal. apply map_ext. intros u. symmetry. apply filtered_fl.
Qed.
Lemma details_per h g N n : forall s v, per N v -> Forall (per N) (details h g s n v).
Proof.
  induction n as [|n IH]; intros s v HP; [constructor|]. cbn [details]. constructor.
  - rewrite !filtered_fl. apply fl_per, fl_per, HP.
  - apply Forall_map. apply (Forall_impl _ (fun u (H : per N u) => ltac:(rewrite filtered_fl; exact (fl_per g (- s) u N H)) : per N (filtered g (- s) u))). apply IH. rewrite filtered_fl. apply fl_per, HP.
Qed.
Lemma trend_per g N n : forall s v, per N v -> per N (trend g s n v).
Proof. induction n as [|n IH]; intros s v HP; [exact HP|]. cbn [trend]. rewrite !filtered_fl. apply fl_per, IH, fl_per, HP. Qed.

Lemma total_app l l' z : total (l ++ l') z = total l z + total l' z.
Proof. unfold total. induction l as [|f l IH]; cbn [app map rsum]; [ring|]. rewrite IH. ring. Qed.
Lemma fl_add a s v w z : fl a s (fun y => v y + w y) z = fl a s v z + fl a s w z.
Proof. unfold fl. rewrite cv_add. unfold Rdiv. ring. Qed.
Lemma total_fl a s fs z : total (map (fl a s) fs) z = fl a s (total fs) z.
Proof.
  unfold total. induction fs as [|f fs IH]; cbn [map rsum].
  - unfold fl. rewrite cv_zero. unfold Rdiv. ring.
  - rewrite IH. symmetry. apply fl_add.
Qed.

Lemma sum_rows_of_fun N fs : sum_rows N (map (of_fun N) fs) = of_fun N (total fs).
Proof.
  unfold sum_rows, total. induction fs as [|f fs IH].
  - cbn. unfold of_fun. rewrite <- (seq_length N 0) at 1. generalize (seq 0 N). intros l. induction l as [|i l IHl]; cbn; [reflexivity|]. f_equal. exact IHl.
  - cbn [map fold_right]. rewrite IH. unfold of_fun. generalize (seq 0 N). intros l. clear. induction l as [|i l IHl]; cbn [map combine fst snd rsum]; [reflexivity|]. f_equal. exact IHl.
Qed.

Lemma zero_row N f : map (fun _ => 0) (of_fun N f) = of_fun N (fun _ => 0).
Proof. unfold of_fun. rewrite map_map. reflexivity. Qed.
Lemma removelast_snoc {A} (l : list A) x : removelast (l ++ [x]) = l.
Proof. rewrite removelast_app by discriminate. cbn. apply app_nil_r. Qed.

Section Main.
Variable Wavelet : string -> res (list R * list R).

Lemma modwt_ok name h g x level : Wavelet name = Ok (h, g) -> usable h g -> x <> [] ->
  modwt Wavelet x name level = Ok (map (of_fun (List.length x)) (mw h g 1 (Z.to_nat level) (ext x))).
Proof.
  intros EW (H1 & H2 & H3 & H4) Hx. unfold modwt. rewrite EW. cbn [bind fst snd]. rewrite <- (of_fun_self x) at 1.
  apply (modwt_from_ok h g (List.length x)); try assumption; [destruct x; [congruence|cbn; lia]|apply ext_per].
Qed.
Lemma hd_mw N h g s n v : List.length (hd [] (map (of_fun N) (mw h g s n v))) = N.
Proof. destruct n; cbn; apply of_fun_length. Qed.
Lemma modwtmra_ok name h g N n v : Wavelet name = Ok (h, g) -> (1 <= N)%nat -> per (Z.of_nat N) v ->
  modwtmra Wavelet (map (of_fun N) (mw h g 1 n v)) name = Ok (map (of_fun N) (dets h g 1 n v)).
Proof.
  intros EW HN HP. unfold modwtmra. rewrite EW. cbn [bind fst snd]. rewrite hd_mw.
  pose proof (mra_from_ok h g N HN n 0 [1] v HP (fun _ => eq_refl)) as E. change (Z.of_nat (2 ^ 0)) with 1%Z in E. rewrite E. f_equal.
  f_equal. rewrite <- map_id. apply map_ext. intros u. apply functional_extensionality. intros z. cbn. lra.
Qed.

Lemma snd_combine_w (l : list R) : forall v : list R, List.length l = List.length v -> map snd (combine l v) = v.
Proof. induction l as [|x l IH]; intros [|y v] H; try discriminate; cbn; [reflexivity|]. f_equal. apply IH. cbn in H. lia. Qed.
Lemma fst_combine_w (l : list R) : forall v : list R, List.length l = List.length v -> map fst (combine l v) = l.
Proof. induction l as [|x l IH]; intros [|y v] H; try discriminate; cbn; [reflexivity|]. f_equal. apply IH. cbn in H. lia. Qed.

Lemma baseline_ok name h g sg level : Wavelet name = Ok (h, g) -> usable h g \/ (level <= 0)%Z -> sg <> [] ->
  baseline_wavelet Wavelet sg level name =
  Ok (combine (map fst sg) (of_fun (List.length sg) (total (details h g 1 (Z.to_nat level) (ext (vals sg)))))).
Proof.
  intros EW HU Hs. assert (Hx : vals sg <> []) by (intros E; apply map_eq_nil in E; congruence).
  assert (HN : List.length (vals sg) = List.length sg) by apply map_length. set (x := vals sg) in *.
  assert (EM : modwt Wavelet x name level = Ok (map (of_fun (List.length x)) (mw h g 1 (Z.to_nat level) (ext x)))).
  { destruct HU as [HU|HL]; [apply modwt_ok; assumption|]. unfold modwt. rewrite EW. cbn [bind]. replace (Z.to_nat level) with 0%nat by lia. cbn [modwt_from mw map]. rewrite of_fun_self. reflexivity. }
  unfold baseline_wavelet. fold x. rewrite EM. cbn [bind]. rewrite (modwtmra_ok name h g (List.length x) _ (ext x) EW); [|destruct x; [congruence|cbn; lia]|apply ext_per].
  cbn [bind]. f_equal. f_equal. rewrite HN. rewrite dets_split, map_app. cbn [map]. unfold clear_last. rewrite removelast_snoc, last_last, zero_row.
  change [of_fun (List.length sg) (fun _ => 0)] with (map (of_fun (List.length sg)) [fun _ : Z => 0]). rewrite <- map_app, sum_rows_of_fun. apply of_fun_ext'. intros z. rewrite total_app. unfold total at 2. cbn. lra.
Qed.

Lemma wrapped_ext x : wrapped x = ext x.
Proof. reflexivity. Qed.

(** ** theorems *)

(** The corrected record: same times, and at each sample the sum of the detail
    components of the periodically continued record. *)
Theorem C96_result : forall name h g sg level, Wavelet name = Ok (h, g) -> usable h g \/ (level <= 0)%Z -> sg <> [] ->
  exists y, baseline_wavelet Wavelet sg level name = Ok y /\ map fst y = map fst sg /\
    forall i, (i < List.length sg)%nat -> value y i = total (details h g 1 (Z.to_nat level) (wrapped (map snd sg))) (Z.of_nat i).
Proof.
  intros name h g sg level EW HU Hs. eexists. split; [apply (baseline_ok name h g sg level EW HU Hs)|]. split.
  - apply fst_combine_w. rewrite map_length, of_fun_length. reflexivity.
  - intros i Hi. unfold value. rewrite snd_combine_w by (rewrite map_length, of_fun_length; reflexivity). rewrite of_fun_nth by exact Hi. reflexivity.
Qed.

(** Level 0 (or a negative level) removes everything. *)
Theorem C96_no_levels : forall name h g sg level, Wavelet name = Ok (h, g) -> (level <= 0)%Z -> sg <> [] ->
  exists y, baseline_wavelet Wavelet sg level name = Ok y /\ forall i, value y i = 0.
Proof.
  intros name h g sg level EW HL Hs. destruct (C96_result name h g sg level EW (or_intror HL) Hs) as (y & E & Ht & Hv). exists y. split; [exact E|]. intros i.
  assert (HLy : List.length y = List.length sg) by (rewrite <- (map_length fst y), Ht, map_length; reflexivity).
  destruct (Nat.lt_ge_cases i (List.length sg)) as [L|L].
  - rewrite Hv by exact L. replace (Z.to_nat level) with 0%nat by lia. reflexivity.
  - unfold value. apply nth_overflow. rewrite map_length. lia.
Qed.

(** Errors: an unknown name, or a filter of odd length. *)
Theorem C96_errors : forall name sg level,
  (forall e, Wavelet name = Err e -> baseline_wavelet Wavelet sg level name = Err e) /\
  (forall h g, Wavelet name = Ok (h, g) -> (1 <= List.length h)%nat -> (1 <= List.length g)%nat -> (1 <= level)%Z ->
     (Nat.even (List.length h) = false \/ Nat.even (List.length g) = false) ->
     baseline_wavelet Wavelet sg level name = Err ValueError).
Proof.
  intros name sg level. split.
  - intros e E. unfold baseline_wavelet, modwt. rewrite E. reflexivity.
  - intros h g EW Hh Hg HL HO. unfold baseline_wavelet, modwt. rewrite EW. cbn [bind fst snd].
    destruct (Z.to_nat level) as [|n] eqn:En; [lia|]. cbn [modwt_from]. change (0 + 1)%nat with 1%nat.
    destruct (Nat.even (List.length h)) eqn:Eh.
    + destruct HO as [HO|HO]; [discriminate|]. rewrite ccd_ok by (rewrite scaled_length; auto). cbn [bind]. rewrite ccd_odd by (rewrite scaled_length; exact HO). reflexivity.
    + rewrite ccd_odd by (rewrite scaled_length; exact Eh). reflexivity.
Qed.
End Main.

(** ** perfect reconstruction *)
Lemma lag_cons x g y h k : List.length h = List.length g ->
  lagsum (y :: h) (x :: g) k = x * nth k (x :: g) 0 + y * nth k (y :: h) 0 + lagsum h g k.
Proof.
  intros HL. unfold lagsum. cbn [List.length seq map rsum]. rewrite <- seq_shift, map_map. cbn [nth Nat.add]. f_equal.
Qed.
Definition quad (a : list R) (s : Z) (v : Z -> R) (z : Z) : R := cv a (- s) (cv a s v) z.
Lemma quad_cons x a s v z : quad (x :: a) s v z = x * x * v z + x * (cv a s v (z - s)%Z + cv a (- s) v (z + s)%Z) + quad a s v z.
Proof.
  unfold quad. cbn [cv]. rewrite (cv_ext a (- s) (fun y => x * v y + cv a s v (y - s)%Z) (fun y => x * v y + (fun u => cv a s v (u + - s)%Z) y)) by (intros y; reflexivity).
  rewrite cv_add, cv_scale, (cv_shift a (- s) (cv a s v) (- s)). replace (z - - s)%Z with (z + s)%Z by lia. replace (z + s + - s)%Z with z by lia. ring.
Qed.
Lemma rsum_plus {A} (f g : A -> R) l : rsum (map (fun x => f x + g x) l) = rsum (map f l) + rsum (map g l).
Proof. induction l as [|x l IH]; cbn; [ring|]. rewrite IH. ring. Qed.
Lemma rsum_scale {A} c (f : A -> R) l : rsum (map (fun x => c * f x) l) = c * rsum (map f l).
Proof. induction l as [|x l IH]; cbn; [ring|]. rewrite IH. ring. Qed.

(** Analysis followed by synthesis depends on the filters only through the lag sums. *)
Lemma quad_lags s v z : forall h g M, List.length h = List.length g -> (List.length g <= M)%nat ->
  quad h s v z + quad g s v z =
  lagsum h g 0 * v z + rsum (map (fun k => lagsum h g (S k) * (v (z + s * Z.of_nat (S k))%Z + v (z - s * Z.of_nat (S k))%Z)) (seq 0 M)).
Proof.
  induction h as [|y h IH]; intros [|x g] M HL HM; try discriminate.
  - unfold quad, lagsum. cbn [cv List.length seq map rsum].
    assert (E0 : rsum (map (fun k : nat => 0 * (v (z + s * Z.of_nat (S k))%Z + v (z - s * Z.of_nat (S k))%Z)) (seq 0 M)) = 0) by (rewrite rsum_scale; ring).
    rewrite E0. ring.
  - cbn in HL, HM. rewrite !quad_cons. specialize (IH g M ltac:(lia) ltac:(lia)).
    rewrite !(cv_sum h _ v _ M), !(cv_sum g _ v _ M) by lia. rewrite lag_cons by lia. cbn [nth].
    rewrite (map_ext (fun k => lagsum (y :: h) (x :: g) (S k) * (v (z + s * Z.of_nat (S k))%Z + v (z - s * Z.of_nat (S k))%Z))
      (fun k => (x * (nth k g 0 * v (z - s - s * Z.of_nat k)%Z + nth k g 0 * v (z + s - - s * Z.of_nat k)%Z) +
                 y * (nth k h 0 * v (z - s - s * Z.of_nat k)%Z + nth k h 0 * v (z + s - - s * Z.of_nat k)%Z)) +
                lagsum h g (S k) * (v (z + s * Z.of_nat (S k))%Z + v (z - s * Z.of_nat (S k))%Z))).
    + rewrite rsum_plus, rsum_plus, !rsum_scale, !rsum_plus. lra.
    + intros k. rewrite lag_cons by lia. cbn [nth]. replace (z - s - s * Z.of_nat k)%Z with (z - s * Z.of_nat (S k))%Z by lia.
      replace (z + s - - s * Z.of_nat k)%Z with (z + s * Z.of_nat (S k))%Z by lia. ring.
Qed.

Lemma sqrt22 : sqrt 2 * sqrt 2 = 2.
Proof. apply sqrt_sqrt. lra. Qed.
Lemma sqrt2_pos : 0 < sqrt 2.
Proof. apply sqrt_lt_R0. lra. Qed.
Lemma fl_quad a s v z : fl a (- s) (fl a s v) z = quad a s v z / 2.
Proof.
  unfold fl, quad. rewrite (cv_ext a (- s) (fun z0 => cv a s v z0 / sqrt 2) (fun y => / sqrt 2 * cv a s v y)) by (intros y; unfold Rdiv; ring).
  rewrite cv_scale. pose proof sqrt2_pos. pose proof sqrt22 as E. replace 2 with (sqrt 2 * sqrt 2) at 3 by exact E. field. lra.
Qed.

(** Deviation from orthogonality of the two filters. *)
Definition defect (h g : list R) : R := Rabs (lagsum h g 0 - 2) / 2 + rsum (map (fun k => Rabs (lagsum h g (S k))) (seq 0 (List.length g))).
Definition gain (g : list R) : R := rsum (map Rabs g) / sqrt 2.

Lemma rsum_abs {A} (f : A -> R) l : Rabs (rsum (map f l)) <= rsum (map (fun x => Rabs (f x)) l).
Proof. induction l as [|x l IH]; cbn [map rsum]; [rewrite Rabs_R0; lra|]. eapply Rle_trans; [apply Rabs_triang|]. lra. Qed.
Lemma rsum_le {A} (f g : A -> R) l : (forall x, f x <= g x) -> rsum (map f l) <= rsum (map g l).
Proof. intros H. induction l as [|x l IH]; cbn; [lra|]. specialize (H x). lra. Qed.

Lemma step_defect h g s v z B : List.length h = List.length g -> (forall y, Rabs (v y) <= B) ->
  Rabs (fl h (- s) (fl h s v) z + fl g (- s) (fl g s v) z - v z) <= defect h g * B.
Proof.
  intros HL HB. rewrite !fl_quad. replace (quad h s v z / 2 + quad g s v z / 2 - v z) with ((quad h s v z + quad g s v z - 2 * v z) / 2) by lra.
  rewrite (quad_lags s v z h g (List.length g) HL (Nat.le_refl _)).
  set (T := rsum _). replace ((lagsum h g 0 * v z + T - 2 * v z) / 2) with ((lagsum h g 0 - 2) / 2 * v z + T / 2) by lra.
  assert (HT : Rabs T <= rsum (map (fun k => Rabs (lagsum h g (S k))) (seq 0 (List.length g))) * (2 * B)).
  { unfold T. eapply Rle_trans; [apply rsum_abs|]. rewrite Rmult_comm, <- rsum_scale. apply rsum_le. intros k. rewrite Rabs_mult, (Rmult_comm (2 * B)).
    apply Rmult_le_compat_l; [apply Rabs_pos|]. eapply Rle_trans; [apply Rabs_triang|]. pose proof (HB (z + s * Z.of_nat (S k))%Z). pose proof (HB (z - s * Z.of_nat (S k))%Z). lra. }
  eapply Rle_trans; [apply Rabs_triang|]. unfold defect. rewrite Rmult_plus_distr_r. apply Rplus_le_compat.
  - rewrite Rabs_mult. unfold Rdiv. rewrite Rabs_mult, (Rabs_pos_eq (/ 2)) by lra. apply Rmult_le_compat_l; [|apply HB]. pose proof (Rabs_pos (lagsum h g 0 - 2)). lra.
  - unfold Rdiv. rewrite Rabs_mult, (Rabs_pos_eq (/ 2)) by lra. lra.
Qed.
Lemma fl_bound a s v B : (forall y, Rabs (v y) <= B) -> forall z, Rabs (fl a s v z) <= gain a * B.
Proof.
  intros HB z. unfold fl, gain. pose proof sqrt2_pos. unfold Rdiv. rewrite Rabs_mult, (Rabs_pos_eq (/ sqrt 2)) by (left; apply Rinv_0_lt_compat; lra).
  assert (E : Rabs (cv a s v z) <= rsum (map Rabs a) * B).
  { revert z. induction a as [|x a IH]; intros z; cbn [cv map rsum]; [rewrite Rabs_R0; lra|]. eapply Rle_trans; [apply Rabs_triang|]. rewrite Rabs_mult. specialize (IH (z - s)%Z).
    pose proof (Rmult_le_compat_l (Rabs x) _ _ (Rabs_pos x) (HB z)). lra. }
  replace (rsum (map Rabs a) * / sqrt 2 * B) with (rsum (map Rabs a) * B * / sqrt 2) by ring. apply Rmult_le_compat_r; [left; apply Rinv_0_lt_compat; lra|exact E].
Qed.
Fixpoint geo (q : R) (n : nat) : R := match n with O => 0 | S n' => 1 + q * geo q n' end.
Lemma gain_nonneg g : 0 <= gain g.
Proof.
  unfold gain. apply Rmult_le_pos; [|left; apply Rinv_0_lt_compat, sqrt2_pos]. induction g as [|x g IH]; cbn; [lra|]. pose proof (Rabs_pos x). lra.
Qed.
Lemma fl_minus a s v w z : fl a s v z - fl a s w z = fl a s (fun y => v y - w y) z.
Proof.
  unfold fl. rewrite (cv_ext a s (fun y => v y - w y) (fun y => 1 * v y + -1 * w y)) by (intros y; ring). rewrite cv_lin. unfold Rdiv. ring.
Qed.
Lemma recon h g : List.length h = List.length g -> forall n s v B, (forall y, Rabs (v y) <= B) ->
  forall z, Rabs (total (dets h g s n v) z - v z) <= defect h g * geo (gain g * gain g) n * B.
Proof.
  intros HL. induction n as [|n IH]; intros s v B HB z.
  - unfold total. cbn. replace (v z + 0 - v z) with 0 by ring. rewrite Rabs_R0. lra.
  - cbn [dets]. change (fl h (- s) (fl h s v) :: map (fl g (- s)) (dets h g (2 * s) n (fl g s v))) with ([fl h (- s) (fl h s v)] ++ map (fl g (- s)) (dets h g (2 * s) n (fl g s v))).
    rewrite total_app, total_fl. unfold total at 1. cbn [map rsum].
    set (T := total (dets h g (2 * s) n (fl g s v))).
    assert (HT : forall y, Rabs ((fun y => T y - fl g s v y) y) <= defect h g * geo (gain g * gain g) n * (gain g * B)).
    { intros y. apply (IH (2 * s)%Z (fl g s v) (gain g * B)). apply fl_bound, HB. }
    pose proof (fl_bound g (- s) _ _ HT z) as H2. pose proof (step_defect h g s v z B HL HB) as H1.
    rewrite <- (fl_minus g (- s) T (fl g s v) z) in H2. cbn [geo].
    replace (fl h (- s) (fl h s v) z + 0 + fl g (- s) T z - v z) with ((fl h (- s) (fl h s v) z + fl g (- s) (fl g s v) z - v z) + (fl g (- s) T z - fl g (- s) (fl g s v) z)) by ring.
    eapply Rle_trans; [apply Rabs_triang|]. eapply Rle_trans; [apply Rplus_le_compat; [exact H1|exact H2]|]. right. ring.
Qed.
Lemma orthogonal_defect h g : orthogonal h g -> defect h g = 0.
Proof.
  intros [_ H]. unfold defect. rewrite (H 0%nat). cbn [Nat.eqb]. replace (2 - 2) with 0 by ring. rewrite Rabs_R0.
  rewrite (map_ext (fun k => Rabs (lagsum h g (S k))) (fun _ => 0 * 0)) by (intros k; rewrite H; cbn [Nat.eqb]; rewrite Rabs_R0; ring). rewrite rsum_scale. lra.
Qed.
Lemma list_bound (x : list R) : exists B, 0 <= B /\ forall z, Rabs (ext x z) <= B.
Proof.
  assert (H : exists B, 0 <= B /\ forall k, Rabs (nth k x 0) <= B).
  { induction x as [|a x (B & HB & IH)]; [exists 0; split; [lra|]; intros [|k]; cbn; rewrite Rabs_R0; lra|].
    exists (Rmax B (Rabs a)). split; [eapply Rle_trans; [exact HB|apply Rmax_l]|]. intros [|k]; cbn; [apply Rmax_r|]. eapply Rle_trans; [apply IH|apply Rmax_l]. }
  destruct H as (B & HB & H). exists B. split; [exact HB|]. intros z. apply H.
Qed.
Lemma recon_exact h g n s x z : orthogonal h g -> total (details h g s n (ext x)) z = ext x z - trend g s n (ext x) z.
Proof.
  intros HO. destruct (list_bound x) as (B & HB & Hx). pose proof (recon h g (proj1 HO) n s (ext x) B Hx z) as H. rewrite (orthogonal_defect h g HO) in H.
  rewrite !Rmult_0_l in H. rewrite dets_split, total_app in H. unfold total in H at 2. cbn [map rsum] in H. pose proof (Rabs_pos (total (details h g s n (ext x)) z + (trend g s n (ext x) z + 0) - ext x z)).
  assert (E : Rabs (total (details h g s n (ext x)) z + (trend g s n (ext x) z + 0) - ext x z) = 0) by lra. destruct (Req_dec (total (details h g s n (ext x)) z + (trend g s n (ext x) z + 0) - ext x z) 0) as [E'|E']; [lra|]. apply Rabs_no_R0 in E'. lra.
Qed.

(** For orthogonal wavelets the components of the analysis add up to the record,
    and the correction removes exactly the trend. *)
Theorem C96_removes_trend : forall Wavelet name h g sg level, Wavelet name = Ok (h, g) -> usable h g -> orthogonal h g -> sg <> [] ->
  exists y, baseline_wavelet Wavelet sg level name = Ok y /\
    forall i, (i < List.length sg)%nat -> value y i = value sg i - trend g 1 (Z.to_nat level) (wrapped (map snd sg)) (Z.of_nat i).
Proof.
  intros W name h g sg level EW HU HO Hs. destruct (C96_result W name h g sg level EW (or_introl HU) Hs) as (y & E & _ & Hv). exists y. split; [exact E|].
  intros i Hi. rewrite Hv by exact Hi. rewrite wrapped_ext, recon_exact by exact HO. f_equal. rewrite ext_nth by (rewrite map_length; exact Hi). reflexivity.
Qed.
Theorem C96_components_add_up : forall Wavelet name h g x level c, Wavelet name = Ok (h, g) -> usable h g -> orthogonal h g -> x <> [] ->
  modwt Wavelet x name level = Ok c -> exists m, modwtmra Wavelet c name = Ok m /\ sum_rows (List.length x) m = x /\ List.length m = S (Z.to_nat level).
Proof.
  intros W name h g x level c EW HU HO Hx E. rewrite (modwt_ok W name h g x level EW HU Hx) in E. injection E as <-.
  assert (HN : (1 <= List.length x)%nat) by (destruct x; [congruence|cbn; lia]).
  eexists. split; [apply (modwtmra_ok W name h g (List.length x) _ _ EW HN (ext_per x))|]. split.
  - rewrite sum_rows_of_fun, <- (of_fun_self x) at 1. rewrite of_fun_self. rewrite <- (of_fun_self x) at 3. apply of_fun_ext'. intros z. rewrite dets_split, total_app, recon_exact by exact HO. unfold total. cbn. lra.
  - rewrite map_length. generalize 1%Z, (ext x). induction (Z.to_nat level) as [|n IH]; intros s v; [reflexivity|]. cbn [dets List.length]. rewrite map_length, IH. reflexivity.
Qed.
(** For filters that are orthogonal only up to rounding (such as the default
    'dmey'), the correction still is the record minus its trend up to the stated
    multiple of the largest sample. *)
Theorem C96_nearly_orthogonal : forall Wavelet name h g sg level y B, Wavelet name = Ok (h, g) -> usable h g -> List.length h = List.length g -> sg <> [] ->
  baseline_wavelet Wavelet sg level name = Ok y -> (forall i, (i < List.length sg)%nat -> Rabs (value sg i) <= B) ->
  forall i, (i < List.length sg)%nat ->
  Rabs (value y i - (value sg i - trend g 1 (Z.to_nat level) (wrapped (map snd sg)) (Z.of_nat i))) <= defect h g * geo (gain g * gain g) (Z.to_nat level) * B.
Proof.
  intros W name h g sg level y B EW HU HL Hs E HB i Hi. destruct (C96_result W name h g sg level EW (or_introl HU) Hs) as (y' & E' & _ & Hv). assert (y' = y) by congruence. subst y'.
  rewrite Hv by exact Hi. rewrite wrapped_ext. assert (Hx : forall z, Rabs (ext (map snd sg) z) <= B).
  { intros z. unfold ext. set (k := Z.to_nat _). assert (Hk : (k < List.length sg)%nat).
    { unfold k. rewrite map_length. pose proof (Z.mod_pos_bound z (Z.of_nat (List.length sg)) ltac:(destruct sg; [congruence|cbn; lia])). lia. }
    apply (HB k Hk). }
  pose proof (recon h g HL (Z.to_nat level) 1 (ext (map snd sg)) B Hx (Z.of_nat i)) as H. rewrite dets_split, total_app in H. unfold total in H at 2. cbn [map rsum] in H.
  replace (value sg i) with (ext (map snd sg) (Z.of_nat i)) by (rewrite ext_nth by (rewrite map_length; exact Hi); reflexivity).
  eapply Rle_trans; [right|exact H]. f_equal. ring.
Qed.

(** ** energy, means, superposition, rotation *)
Definition psum (N : nat) (f : Z -> R) : R := rsum (map (fun i => f (Z.of_nat i)) (seq 0 N)).
Lemma psum_ext N f f' : (forall z, f z = f' z) -> psum N f = psum N f'.
Proof. intros H. unfold psum. f_equal. apply map_ext. intros i. apply H. Qed.
Lemma psum_plus N f f' : psum N (fun z => f z + f' z) = psum N f + psum N f'.
Proof. apply rsum_plus. Qed.
Lemma psum_scale N c f : psum N (fun z => c * f z) = c * psum N f.
Proof. apply rsum_scale. Qed.
Lemma psum_succ N f : psum (S N) f = psum N f + f (Z.of_nat N).
Proof. unfold psum. rewrite seq_S, map_app. cbn [Nat.add map]. generalize (map (fun i => f (Z.of_nat i)) (seq 0 N)). intros l. induction l as [|x l IH]; cbn; [ring|]. rewrite IH. ring. Qed.
Lemma psum_shift1 N f : psum N (fun z => f (z + 1)%Z) + f 0%Z = psum N f + f (Z.of_nat N).
Proof. induction N as [|N IH]; [reflexivity|]. rewrite !psum_succ. replace (Z.of_nat N + 1)%Z with (Z.of_nat (S N)) by lia. lra. Qed.
Lemma psum_shift N f d : per (Z.of_nat N) f -> psum N (fun z => f (z + d)%Z) = psum N f.
Proof.
  intros HP. assert (P1 : forall f, per (Z.of_nat N) f -> psum N (fun z => f (z + 1)%Z) = psum N f).
  { intros f0 H0. pose proof (psum_shift1 N f0) as E. pose proof (H0 0%Z) as E0. cbn [Z.add] in E0. rewrite E0 in E. lra. }
  assert (PN : forall n : nat, psum N (fun z => f (z + Z.of_nat n)%Z) = psum N f /\ psum N (fun z => f (z - Z.of_nat n)%Z) = psum N f).
  { induction n as [|n [I1 I2]]; [split; apply psum_ext; intros z; f_equal; lia|]. split.
    - rewrite <- I1, <- (P1 (fun z => f (z + Z.of_nat n)%Z)).
      + apply psum_ext. intros z. f_equal. lia.
      + intros z. rewrite <- (HP (z + Z.of_nat n)%Z). f_equal. lia.
    - rewrite <- I2, <- (P1 (fun z => f (z - Z.of_nat (S n))%Z)).
      + apply psum_ext. intros z. f_equal. lia.
      + intros z. rewrite <- (HP (z - Z.of_nat (S n))%Z). f_equal. lia. }
  destruct (Z.le_gt_cases 0 d).
  - destruct (PN (Z.to_nat d)) as [I _]. rewrite Z2Nat.id in I by lia. exact I.
  - destruct (PN (Z.to_nat (- d))) as [_ I]. rewrite Z2Nat.id in I by lia. rewrite <- I. apply psum_ext. intros z. f_equal. lia.
Qed.
Lemma psum_adjoint N a s : forall u v, per (Z.of_nat N) u -> per (Z.of_nat N) v -> psum N (fun z => u z * cv a s v z) = psum N (fun z => cv a (- s) u z * v z).
Proof.
  induction a as [|x a IH]; intros u v Hu Hv; cbn [cv]; [apply psum_ext; intros z; ring|].
  transitivity (x * psum N (fun z => u z * v z) + psum N (fun z => u z * cv a s v (z - s)%Z)).
  { rewrite <- psum_scale, <- psum_plus. apply psum_ext. intros z. ring. }
  transitivity (x * psum N (fun z => u z * v z) + psum N (fun z => cv a (- s) u (z - - s)%Z * v z)).
  { f_equal. rewrite <- (psum_shift N (fun z => u z * cv a s v (z - s)%Z) s).
    - transitivity (psum N (fun z => (fun y => u (y + s)%Z) z * cv a s v z)).
      + apply psum_ext. intros z. do 2 f_equal. lia.
      + rewrite (IH (fun y => u (y + s)%Z) v); [|intros z; replace (z + Z.of_nat N + s)%Z with (z + s + Z.of_nat N)%Z by lia; apply Hu|exact Hv].
        apply psum_ext. intros z. rewrite (cv_shift a (- s) u s). do 2 f_equal. lia.
    - intros z. rewrite Hu. f_equal. replace (z + Z.of_nat N - s)%Z with (z - s + Z.of_nat N)%Z by lia. apply (cv_per a s v _ Hv). }
  rewrite <- psum_scale, <- psum_plus. apply psum_ext. intros z. ring.
Qed.
Definition energy (l : list R) : R := rsum (map (fun x => x * x) l).
Lemma energy_of_fun N f : energy (of_fun N f) = psum N (fun z => f z * f z).
Proof. unfold energy, of_fun, psum. rewrite map_map. reflexivity. Qed.
Lemma per_mult N u v : per N u -> per N v -> per N (fun z => u z * v z).
Proof. intros Hu Hv z. rewrite Hu, Hv. reflexivity. Qed.
Lemma fl_energy N h g s v : per (Z.of_nat N) v -> orthogonal h g ->
  psum N (fun z => fl h s v z * fl h s v z) + psum N (fun z => fl g s v z * fl g s v z) = psum N (fun z => v z * v z).
Proof.
  intros HP HO.
  assert (A : forall a, psum N (fun z => fl a s v z * fl a s v z) = psum N (fun z => fl a (- s) (fl a s v) z * v z)).
  { intros a. transitivity (/ sqrt 2 * psum N (fun z => fl a s v z * cv a s v z)).
    - rewrite <- psum_scale. apply psum_ext. intros z. unfold fl at 2. unfold Rdiv. ring.
    - rewrite psum_adjoint by (try apply fl_per; exact HP). rewrite <- psum_scale. apply psum_ext. intros z. unfold fl at 2. unfold Rdiv. ring. }
  rewrite !A, <- psum_plus. apply psum_ext. intros z. rewrite <- Rmult_plus_distr_r. f_equal.
  rewrite !fl_quad. pose proof (quad_lags s v z h g (List.length g) (proj1 HO) (Nat.le_refl _)) as E. rewrite (proj2 HO 0%nat) in E. cbn [Nat.eqb] in E.
  rewrite (map_ext (fun k => lagsum h g (S k) * (v (z + s * Z.of_nat (S k))%Z + v (z - s * Z.of_nat (S k))%Z)) (fun k => 0 * (v (z + s * Z.of_nat (S k))%Z + v (z - s * Z.of_nat (S k))%Z))) in E by (intros k; rewrite (proj2 HO (S k)); reflexivity).
  rewrite rsum_scale in E. lra.
Qed.
(** The coefficients of an orthogonal wavelet carry exactly the energy of the record. *)
Theorem C96_energy : forall Wavelet name h g x level, Wavelet name = Ok (h, g) -> usable h g -> orthogonal h g -> x <> [] ->
  exists c, modwt Wavelet x name level = Ok c /\ List.length c = S (Z.to_nat level) /\ rsum (map energy c) = energy x.
Proof.
  intros W name h g x level EW HU HO Hx. eexists. split; [apply (modwt_ok W name h g x level EW HU Hx)|].
  assert (E : forall n s v, per (Z.of_nat (List.length x)) v -> List.length (mw h g s n v) = S n /\ rsum (map energy (map (of_fun (List.length x)) (mw h g s n v))) = psum (List.length x) (fun z => v z * v z)).
  { induction n as [|n IH]; intros s v HP.
    - split; [reflexivity|]. cbn [mw map rsum]. rewrite energy_of_fun. ring.
    - destruct (IH (2 * s)%Z (fl g s v) (fl_per _ _ _ _ HP)) as [I1 I2]. split; [cbn [mw List.length]; rewrite I1; reflexivity|].
      cbn [mw map rsum]. rewrite I2, energy_of_fun. apply fl_energy; assumption. }
  destruct (E (Z.to_nat level) 1%Z (ext x) (ext_per x)) as [E1 E2]. split; [rewrite map_length; exact E1|]. rewrite E2, <- energy_of_fun, of_fun_self. reflexivity.
Qed.

Lemma psum_cv N a s v : per (Z.of_nat N) v -> psum N (cv a s v) = rsum a * psum N v.
Proof.
  intros HP. induction a as [|x a IH]; cbn [cv rsum].
  - rewrite Rmult_0_l. transitivity (0 * psum N v); [|ring]. rewrite <- psum_scale. apply psum_ext. intros z. ring.
  - rewrite (psum_plus N (fun z => x * v z) (fun z => cv a s v (z - s)%Z)), psum_scale.
    rewrite (psum_ext N (fun z => cv a s v (z - s)%Z) (fun z => cv a s v (z + - s)%Z)) by (intros z; reflexivity). rewrite (psum_shift N (cv a s v) (- s)) by (apply cv_per, HP). rewrite IH. ring.
Qed.
Lemma psum_fl N a s v : per (Z.of_nat N) v -> psum N (fl a s v) = rsum a / sqrt 2 * psum N v.
Proof.
  intros HP. transitivity (/ sqrt 2 * psum N (cv a s v)); [rewrite <- psum_scale; apply psum_ext; intros z; unfold fl, Rdiv; ring|]. rewrite psum_cv by exact HP. unfold Rdiv. ring.
Qed.
Lemma rsum_of_fun N f : rsum (of_fun N f) = psum N f.
Proof. reflexivity. Qed.
Lemma psum_details h g N : rsum h = 0 -> forall n s v, per (Z.of_nat N) v -> psum N (total (details h g s n v)) = 0.
Proof.
  intros Hh. induction n as [|n IH]; intros s v HP.
  - cbn [details]. unfold total. cbn. transitivity (0 * psum N v); [rewrite <- psum_scale; apply psum_ext; intros z; ring|ring].
  - cbn [details]. rewrite !filtered_fl. rewrite (psum_ext N _ (fun z => fl h (- s) (fl h s v) z + fl g (- s) (total (details h g (2 * s) n (fl g s v))) z)).
    + rewrite psum_plus, (psum_fl N h) by (apply fl_per, HP). rewrite Hh.
      assert (HT : per (Z.of_nat N) (total (details h g (2 * s) n (fl g s v)))).
      { intros z. unfold total. f_equal. apply map_ext_in. intros f Hf. pose proof (details_per h g (Z.of_nat N) n (2 * s) (fl g s v) (fl_per _ _ _ _ HP)) as HF. rewrite Forall_forall in HF. apply (HF f Hf). }
      rewrite (psum_fl N g) by exact HT. rewrite IH by (apply fl_per, HP). unfold Rdiv. ring.
    + intros z. rewrite <- total_fl. unfold total. cbn [map rsum]. do 2 f_equal. rewrite (map_ext (filtered g (- s)) (fl g (- s))) by (intros u; apply filtered_fl). reflexivity.
Qed.
(** When the wavelet filter sums to zero the corrected record has mean zero, and
    constant records vanish, whatever the level. *)
Theorem C96_zero_mean : forall Wavelet name h g sg level, Wavelet name = Ok (h, g) -> usable h g -> rsum h = 0 -> sg <> [] ->
  exists y, baseline_wavelet Wavelet sg level name = Ok y /\ rsum (map snd y) = 0.
Proof.
  intros W name h g sg level EW HU Hh Hs. eexists. split; [apply (baseline_ok W name h g sg level EW (or_introl HU) Hs)|].
  rewrite snd_combine_w by (rewrite map_length, of_fun_length; reflexivity). rewrite rsum_of_fun. apply (psum_details h g (List.length sg) Hh).
  replace (List.length sg) with (List.length (vals sg)) by apply map_length. apply ext_per.
Qed.
Lemma cv_const a s c z : cv a s (fun _ => c) z = rsum a * c.
Proof. revert z. induction a as [|x a IH]; intros z; cbn; [ring|]. rewrite IH. ring. Qed.
Lemma details_const h g : rsum h = 0 -> forall n s c z, total (details h g s n (fun _ => c)) z = 0.
Proof.
  intros Hh. induction n as [|n IH]; intros s c z; [reflexivity|]. cbn [details]. rewrite !filtered_fl.
  assert (E1 : fl h s (fun _ => c) = (fun _ => 0)) by (apply functional_extensionality; intros y; unfold fl; rewrite cv_const, Hh; unfold Rdiv; ring).
  assert (E2 : fl g s (fun _ => c) = (fun _ => rsum g * c / sqrt 2)) by (apply functional_extensionality; intros y; unfold fl; rewrite cv_const; reflexivity).
  rewrite E1, E2. rewrite (map_ext (filtered g (- s)) (fl g (- s))) by (intros u; apply filtered_fl). unfold total. cbn [map rsum].
  change (fl h (- s) (fun _ => 0) z + total (map (fl g (- s)) (details h g (2 * s) n (fun _ => rsum g * c / sqrt 2))) z = 0).
  rewrite total_fl. unfold fl. rewrite cv_zero. rewrite (cv_ext g (- s) _ (fun _ => 0)) by (intros y; apply IH). rewrite cv_zero. unfold Rdiv. ring.
Qed.
Theorem C96_constants_vanish : forall Wavelet name h g sg level c, Wavelet name = Ok (h, g) -> usable h g -> rsum h = 0 -> sg <> [] ->
  (forall i, (i < List.length sg)%nat -> value sg i = c) ->
  exists y, baseline_wavelet Wavelet sg level name = Ok y /\ forall i, (i < List.length sg)%nat -> value y i = 0.
Proof.
  intros W name h g sg level c EW HU Hh Hs Hc. destruct (C96_result W name h g sg level EW (or_introl HU) Hs) as (y & E & _ & Hv). exists y. split; [exact E|].
  intros i Hi. rewrite Hv by exact Hi. replace (wrapped (map snd sg)) with (fun _ : Z => c); [apply details_const, Hh|].
  apply functional_extensionality. intros z. unfold wrapped. symmetry. apply Hc. rewrite map_length. pose proof (Z.mod_pos_bound z (Z.of_nat (List.length sg)) ltac:(destruct sg; [congruence|cbn; lia])). lia.
Qed.

Lemma details_lin h g a b : forall n s v w z, total (details h g s n (fun y => a * v y + b * w y)) z = a * total (details h g s n v) z + b * total (details h g s n w) z.
Proof.
  induction n as [|n IH]; intros s v w z; [unfold total; cbn; ring|]. cbn [details].
  assert (L : forall f t v w, fl f t (fun y => a * v y + b * w y) = (fun y => a * fl f t v y + b * fl f t w y)) by (intros f t v0 w0; apply functional_extensionality; intros y; unfold fl; rewrite cv_lin; unfold Rdiv; ring).
  rewrite !filtered_fl, !(map_ext (filtered g (- s)) (fl g (- s))) by (intros u; apply filtered_fl). rewrite !L.
  assert (C : forall f l z, total (f :: l) z = f z + total l z) by reflexivity. rewrite !C, !total_fl.
  replace (total (details h g (2 * s) n (fun y => a * fl g s v y + b * fl g s w y))) with (fun y => a * total (details h g (2 * s) n (fl g s v)) y + b * total (details h g (2 * s) n (fl g s w)) y)
    by (apply functional_extensionality; intros y; symmetry; apply IH).
  rewrite L. ring.
Qed.
(** Superposition. *)
Theorem C96_superposition : forall Wavelet name h g r s t a b level, Wavelet name = Ok (h, g) -> usable h g -> t <> [] ->
  List.length r = List.length t -> List.length s = List.length t -> (forall i, (i < List.length t)%nat -> value t i = a * value r i + b * value s i) ->
  exists yr ys yt, baseline_wavelet Wavelet r level name = Ok yr /\ baseline_wavelet Wavelet s level name = Ok ys /\ baseline_wavelet Wavelet t level name = Ok yt /\
    forall i, (i < List.length t)%nat -> value yt i = a * value yr i + b * value ys i.
Proof.
  intros W name h g r s t a b level EW HU Ht Lr Ls Hv.
  assert (N1 : r <> []) by (intros ->; destruct t; [congruence|discriminate]). assert (N2 : s <> []) by (intros ->; destruct t; [congruence|discriminate]).
  destruct (C96_result W name h g r level EW (or_introl HU) N1) as (yr & Er & _ & Hr). destruct (C96_result W name h g s level EW (or_introl HU) N2) as (ys & Es & _ & Hs).
  destruct (C96_result W name h g t level EW (or_introl HU) Ht) as (yt & Et & _ & Htv). exists yr, ys, yt. split; [exact Er|]. split; [exact Es|]. split; [exact Et|].
  intros i Hi. rewrite Htv, Hr, Hs by lia. rewrite <- details_lin. do 2 f_equal. apply functional_extensionality. intros z. unfold wrapped. rewrite !map_length, Lr, Ls. apply Hv.
  pose proof (Z.mod_pos_bound z (Z.of_nat (List.length t)) ltac:(destruct t; [congruence|cbn; lia])). lia.
Qed.
Lemma details_shift h g d : forall n s v z, total (details h g s n (fun y => v (y + d)%Z)) z = total (details h g s n v) (z + d)%Z.
Proof.
  induction n as [|n IH]; intros s v z; [reflexivity|]. cbn [details].
  assert (L : forall f t v, fl f t (fun y => v (y + d)%Z) = (fun y => fl f t v (y + d)%Z)) by (intros f t v0; apply functional_extensionality; intros y; unfold fl; rewrite cv_shift; reflexivity).
  rewrite !filtered_fl, !(map_ext (filtered g (- s)) (fl g (- s))) by (intros u; apply filtered_fl). rewrite !L.
  assert (C : forall f l z, total (f :: l) z = f z + total l z) by reflexivity. rewrite !C, !total_fl.
  replace (total (details h g (2 * s) n (fun y => fl g s v (y + d)%Z))) with (fun y => total (details h g (2 * s) n (fl g s v)) (y + d)%Z)
    by (apply functional_extensionality; intros y; symmetry; apply IH).
  rewrite L. reflexivity.
Qed.
(** The transform knows no first sample: rotating the record rotates the result. *)
Theorem C96_rotation : forall Wavelet name h g r t d level, Wavelet name = Ok (h, g) -> usable h g -> t <> [] -> List.length r = List.length t ->
  (forall i, (i < List.length t)%nat -> value r i = value t ((i + d) mod List.length t)) ->
  exists yr yt, baseline_wavelet Wavelet r level name = Ok yr /\ baseline_wavelet Wavelet t level name = Ok yt /\
    forall i, (i < List.length t)%nat -> value yr i = value yt ((i + d) mod List.length t).
Proof.
  intros W name h g r t d level EW HU Ht Lr Hv. assert (N1 : r <> []) by (intros ->; destruct t; [congruence|discriminate]).
  assert (HN : (0 < List.length t)%nat) by (destruct t; [congruence|cbn; lia]).
  destruct (C96_result W name h g r level EW (or_introl HU) N1) as (yr & Er & _ & Hr). destruct (C96_result W name h g t level EW (or_introl HU) Ht) as (yt & Et & _ & Htv).
  exists yr, yt. split; [exact Er|]. split; [exact Et|]. intros i Hi. rewrite Hr by lia. rewrite Htv by (apply Nat.mod_upper_bound; lia).
  replace (wrapped (map snd r)) with (fun y => wrapped (map snd t) (y + Z.of_nat d)%Z).
  - rewrite details_shift. set (T := total _). assert (HT : per (Z.of_nat (List.length t)) T).
    { intros z. unfold T, total. f_equal. apply map_ext_in. intros f Hf. pose proof (details_per h g (Z.of_nat (List.length t)) (Z.to_nat level) 1 (wrapped (map snd t))) as HF.
      rewrite Forall_forall in HF. refine (HF _ f Hf z). rewrite wrapped_ext. replace (List.length t) with (List.length (map snd t)) by apply map_length. apply ext_per. }
    rewrite <- (per_mul _ T HT (Z.of_nat ((i + d) / List.length t)) (Z.of_nat ((i + d) mod List.length t))). f_equal.
    pose proof (Nat.div_mod (i + d) (List.length t) ltac:(lia)). lia.
  - apply functional_extensionality. intros z. unfold wrapped. rewrite !map_length, Lr. set (N := List.length t) in *. pose proof (Z.mod_pos_bound z (Z.of_nat N) ltac:(lia)) as HB.
    change (value t (Z.to_nat ((z + Z.of_nat d) mod Z.of_nat N)) = value r (Z.to_nat (z mod Z.of_nat N))). rewrite Hv by lia. f_equal.
    apply Nat2Z.inj. rewrite Z2Nat.id by (apply Z.mod_pos_bound; lia). rewrite Nat2Z.inj_mod, Nat2Z.inj_add, Z2Nat.id by lia. rewrite Z.add_mod_idemp_l by lia. reflexivity.
Qed.

(** ** Haar *)
Definition haar_h : list R := [- (1 / sqrt 2); 1 / sqrt 2].
Definition haar_g : list R := [1 / sqrt 2; 1 / sqrt 2].
Definition bank (s : string) : res (list R * list R) := if String.eqb s "haar" then Ok (haar_h, haar_g) else Err ValueError.
Lemma haar_usable : usable haar_h haar_g.
Proof. unfold usable. cbn. repeat split; lia. Qed.
Lemma half : 1 / sqrt 2 * (1 / sqrt 2) = 1 / 2.
Proof. pose proof sqrt2_pos. pose proof sqrt22 as E. replace (1 / 2) with (1 / (sqrt 2 * sqrt 2)) by (rewrite E; reflexivity). field. lra. Qed.
Lemma haar_orthogonal : orthogonal haar_h haar_g.
Proof.
  split; [reflexivity|]. intros k. pose proof half as HH. unfold lagsum, haar_h, haar_g. set (r := 1 / sqrt 2) in *. clearbody r. cbn [List.length seq map rsum]. destruct k as [|[|k]]; cbn [nth Nat.add Nat.eqb].
  - nra.
  - nra.
  - destruct k; cbn; ring.
Qed.
(** The correction wraps around (finding): with the Haar wavelet and one level the
    first corrected sample depends on the last sample of the record, however long. *)
Theorem C96_wraps_around : forall sg, (1 <= List.length sg)%nat ->
  exists y, baseline_wavelet bank sg 1 "haar" = Ok y /\
    value y 0 = (2 * value sg 0 - value sg (List.length sg - 1) - value sg (1 mod List.length sg)) / 4.
Proof.
  intros sg HN. destruct (C96_result bank "haar" haar_h haar_g sg 1 eq_refl (or_introl haar_usable)) as (y & E & _ & Hv); [destruct sg; [cbn in HN; lia|discriminate]|].
  exists y. split; [exact E|]. rewrite Hv by lia. change (Z.to_nat 1) with 1%nat. cbn [details map]. unfold total. cbn [map rsum].
  unfold filtered, haar_h. cbn [List.length seq map rsum nth Z.of_nat Pos.of_succ_nat]. cbn [Z.mul Z.opp Z.sub Z.add Z.of_nat Pos.mul].
  assert (W0 : wrapped (map snd sg) 0 = value sg 0) by (unfold wrapped, value; rewrite Z.mod_0_l by (rewrite map_length; lia); reflexivity).
  assert (W1 : wrapped (map snd sg) 1 = value sg (1 mod List.length sg)).
  { unfold wrapped, value. f_equal. rewrite map_length. change 1%Z with (Z.of_nat 1). rewrite <- Nat2Z.inj_mod, Nat2Z.id. reflexivity. }
  assert (Wm : wrapped (map snd sg) (-1) = value sg (List.length sg - 1)).
  { unfold wrapped, value. f_equal. rewrite map_length. replace (-1 mod Z.of_nat (List.length sg))%Z with (Z.of_nat (List.length sg) - 1)%Z; [lia|].
    apply Z.mod_unique with (-1)%Z; lia. }
  cbn [Z.pos_sub]. replace (0 - 1)%Z with (-1)%Z by reflexivity. replace (1 - 1)%Z with 0%Z by reflexivity. rewrite ?W0, ?W1, ?Wm.
  pose proof half as HH. pose proof sqrt2_pos as Hs. unfold Rdiv at 1 2 3 4 5 6. pose proof sqrt22 as S2.
  assert (Q : / sqrt 2 * / sqrt 2 = / 2) by (unfold Rdiv in HH; rewrite !Rmult_1_l in HH; exact HH).
  unfold Rdiv. rewrite ?Rmult_1_l. set (q := / sqrt 2) in *. clearbody q. set (x0 := value sg 0). set (x1 := value sg (1 mod _)). set (xm := value sg (_ - 1)).
  assert (Q2 : q * q * (q * q) = / 4) by (rewrite Q; lra). 
  repeat match goal with |- context [- q * q] => replace (- q * q) with (- / 2) by lra end. rewrite ?Q. lra.
Qed.
Example C96_instance : exists y, baseline_wavelet bank [(0, 1); (1, 2); (2, 4)] 1 "haar" = Ok y /\ value y 0 = -1 /\ rsum (map snd y) = 0.
Proof.
  set (sg := [(0, 1); (1, 2); (2, 4)]). destruct (C96_wraps_around sg ltac:(cbn; lia)) as (y & E & H0). exists y. split; [exact E|]. split.
  - rewrite H0. unfold value, sg. cbn. lra.
  - destruct (C96_zero_mean bank "haar" haar_h haar_g sg 1 eq_refl haar_usable) as (y' & E' & M); [unfold haar_h; cbn; ring|discriminate|]. assert (y' = y) by congruence. subst y'. exact M.
Qed.
Example C96_instance_trend : exists y, baseline_wavelet bank [(0, 1); (1, 2); (2, 4)] 6 "haar" = Ok y.
Proof. destruct (C96_removes_trend bank "haar" haar_h haar_g [(0, 1); (1, 2); (2, 4)] 6 eq_refl haar_usable haar_orthogonal ltac:(discriminate)) as (y & E & _). exists y. exact E. Qed.

(** Peak of an array with one or two columns. *)
Theorem C96_peak : forall rows n p, getAbsPeak rows n = Ok p ->
  (n = 1%nat \/ n = 2%nat) /\
  let l := if Nat.eqb n 1 then List.concat rows else map (fun r => nth 1 r 0) rows in
  (forall x, In x l -> Rabs x <= p) /\ exists x, In x l /\ Rabs x = p.
Proof.
  intros rows n p. unfold getAbsPeak.
  assert (G : forall l : list R, match l with [] => Err ValueError | _ => Ok (fold_right Rmax 0 (map Rabs l)) end = Ok p -> (forall x, In x l -> Rabs x <= p) /\ exists x, In x l /\ Rabs x = p).
  { intros l E. assert (Hl : l <> []) by (destruct l; [discriminate|discriminate]). assert (Ep : p = fold_right Rmax 0 (map Rabs l)) by (destruct l; congruence). subst p. clear E. split.
    - intros x Hx. induction l as [|a l IH]; [destruct Hx|]. cbn. destruct Hx as [->|Hx]; [apply Rmax_l|]. eapply Rle_trans; [apply IH; [destruct l; [destruct Hx|discriminate]|exact Hx]|apply Rmax_r].
    - induction l as [|a l IH]; [congruence|]. destruct l as [|b l].
      + exists a. split; [left; reflexivity|]. cbn. rewrite Rmax_left; [reflexivity|apply Rabs_pos].
      + destruct (IH ltac:(discriminate)) as (x & Hx & Ex). cbn [map fold_right] in *. unfold Rmax at 1. destruct (Rle_dec (Rabs a) (Rmax (Rabs b) (fold_right Rmax 0 (map Rabs l)))).
        * exists x. split; [right; exact Hx|exact Ex].
        * exists a. split; [left; reflexivity|reflexivity]. }
  destruct (Nat.eqb_spec n 1) as [->|N1]; [intros E; split; [left; reflexivity|apply G, E]|].
  destruct (Nat.eqb_spec n 2) as [->|N2]; [intros E; split; [right; reflexivity|apply G, E]|discriminate].
Qed.
Theorem C96_peak_errors : forall rows n, (n <> 1%nat -> n <> 2%nat -> getAbsPeak rows n = Err TypeError) /\ (n = 1%nat \/ n = 2%nat -> getAbsPeak [] n = Err ValueError).
Proof.
  intros rows n. split.
  - intros H1 H2. unfold getAbsPeak. rewrite (proj2 (Nat.eqb_neq _ _) H1), (proj2 (Nat.eqb_neq _ _) H2). reflexivity.
  - intros [ -> | -> ]; reflexivity.
Qed.
