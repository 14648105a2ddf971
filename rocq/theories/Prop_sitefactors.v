(** Theorems about site factors (C28 - C31, C79). *)
From Coq Require Import Reals List Bool ZArith String Lia Lra.
From Verif Require Import Base M_generic M_sitefiles M_sitefactors.
Import ListNotations.
Open Scope string_scope.
Open Scope list_scope.
Open Scope R_scope.

(** ** C28 grid search *)
Definition increasing (a : list R) : Prop := forall i j, (i < j < List.length a)%nat -> nth i a 0 < nth j a 0.

Lemma increasing_tl x a : increasing (x :: a) -> increasing a.
Proof. intros H i j Hij. apply (H (S i) (S j)). cbn. lia. Qed.

Lemma last_res_nth (a : list R) : a <> [] -> last_res a = Ok (nth (List.length a - 1) a 0).
Proof.
  intros H. destruct (exists_last H) as (b & x & ->). unfold last_res. rewrite rev_app_distr. cbn [rev app]. rewrite app_length, app_nth2; cbn [List.length]; [|lia].
  replace (List.length b + 1 - 1 - List.length b)%nat with 0%nat by lia. reflexivity.
Qed.

Lemma searchsorted_spec a x : increasing a ->
  (searchsorted_left a (Fin x) <= List.length a)%nat /\
  (forall k, (k < searchsorted_left a (Fin x))%nat -> nth k a 0 < x) /\
  (forall k, (searchsorted_left a (Fin x) <= k < List.length a)%nat -> x <= nth k a 0).
Proof.
  induction a as [|y a IH]; intros H; cbn [searchsorted_left List.length].
  - repeat split; [lia| |]; intros; lia.
  - cbn [nltb orb]. rewrite orb_false_r. destruct (Rltb_spec y x) as [L|L].
    + destruct (IH (increasing_tl _ _ H)) as (A & B & C). repeat split; [lia| |].
      * intros [|k] Hk; [exact L|]. cbn. apply B. lia.
      * intros [|k] Hk; [lia|]. cbn. apply C. lia.
    + repeat split; [lia|intros; lia|]. intros [|k] Hk; [cbn; lra|]. specialize (H 0%nat (S k)). cbn in *. assert (y < nth k a 0) by (apply H; lia). lra.
Qed.

(** For every increasing grid and in-range query: consecutive indices bracketing the
    query; the lower one is strictly below unless the query is the first grid value. *)
Theorem C28_search_brackets : forall a x, increasing a -> (2 <= List.length a)%nat -> nth 0 a 0 <= x <= nth (List.length a - 1) a 0 ->
  exists i, search_sorted (Fin x) a = Ok (i, S i) /\ (S i < List.length a)%nat /\ nth i a 0 <= x <= nth (S i) a 0 /\ (x <> nth 0 a 0 -> nth i a 0 < x) /\ (x = nth 0 a 0 -> i = 0%nat).
Proof.
  intros a x Hi Hl Hx. unfold search_sorted. rewrite (get_ok a 0 0) by lia. cbn [bind]. rewrite last_res_nth by (destruct a; [cbn in Hl; lia|discriminate]). cbn [bind nltb neqb].
  rewrite (proj2 (Rltb_false _ _)) by lra. rewrite (proj2 (Rltb_false _ _)) by lra. cbn [orb]. destruct (Reqb_spec x (nth 0 a 0)) as [E|N].
  - exists 0%nat. pose proof (Hi 0%nat 1%nat ltac:(lia)). repeat split; auto; try lra; lia.
  - destruct (Reqb_spec x (nth (List.length a - 1) a 0)) as [E|N'].
    + exists (List.length a - 2)%nat. replace (S (List.length a - 2)) with (List.length a - 1)%nat by lia.
      assert (nth (List.length a - 2) a 0 < x) by (rewrite E; apply Hi; lia). repeat split; auto; try lra; try lia; congruence.
    + destruct (searchsorted_spec a x Hi) as (A & B & C). set (i := searchsorted_left a (Fin x)) in *. cbv zeta.
      assert (Hp : (0 < i)%nat) by (destruct i as [|i]; [exfalso; specialize (C 0%nat ltac:(lia)); lra|lia]).
      assert (Hq : (i < List.length a)%nat) by (destruct (Nat.lt_ge_cases i (List.length a)) as [?|G]; [assumption|exfalso; specialize (B (List.length a - 1)%nat ltac:(lia)); lra]).
      exists (i - 1)%nat. replace (S (i - 1)) with i by lia. specialize (B (i - 1)%nat ltac:(lia)). specialize (C i ltac:(lia)). repeat split; auto; try lra; congruence.
Qed.

Theorem C28_search_outside : forall a x, increasing a -> (2 <= List.length a)%nat -> x < nth 0 a 0 \/ nth (List.length a - 1) a 0 < x -> search_sorted (Fin x) a = Err ValueError.
Proof.
  intros a x Hi Hl Hx. unfold search_sorted. rewrite (get_ok a 0 0) by lia. cbn [bind]. rewrite last_res_nth by (destruct a; [cbn in Hl; lia|discriminate]). cbn [bind nltb].
  destruct Hx; [rewrite (proj2 (Rltb_true x _)) by assumption|rewrite (proj2 (Rltb_true _ x)) by assumption; rewrite orb_true_r]; reflexivity.
Qed.

(** NaN is not caught: the second index is outside the grid (finding). *)
Theorem C28_search_nan : forall a, a <> [] -> search_sorted NaN a = Ok (List.length a - 1, List.length a)%nat.
Proof.
  intros a H. unfold search_sorted. rewrite (get_ok a 0 0) by (destruct a; [congruence|cbn; lia]). cbn [bind]. rewrite last_res_nth by exact H. cbn [bind nltb orb neqb]. cbv zeta.
  assert (E : searchsorted_left a NaN = List.length a) by (clear; induction a; cbn; auto). rewrite E. reflexivity.
Qed.

Lemma increasing_step a : (forall i, (S i < List.length a)%nat -> nth i a 0 < nth (S i) a 0) -> increasing a.
Proof.
  intros H i j [Hij Hj]. induction j as [|j IH]; [lia|]. destruct (Nat.eq_dec i j) as [->|Hne]; [apply H; lia|].
  apply Rlt_trans with (nth j a 0); [apply IH; lia|apply H; lia].
Qed.
Ltac all_idx := apply increasing_step; intros i Hi; repeat (destruct i as [|i]; [cbn [nth map Vs30_array z1_array PGA_array]; lra|]); cbn in Hi; lia.
Lemma Vs30_increasing : increasing (map IZR Vs30_array). Proof. all_idx. Qed.
Lemma z1_increasing : increasing (map IZR z1_array). Proof. all_idx. Qed.
Lemma PGA_increasing : increasing PGA_array. Proof. all_idx. Qed.

Example C28_instance : search_sorted (Fin 470) (map IZR Vs30_array) = Ok (6, 7)%nat.
Proof.
  destruct (C28_search_brackets (map IZR Vs30_array) 470 Vs30_increasing) as (i & E & H1 & H2 & H3 & _); [cbn; lia|cbn; lra|].
  rewrite E. assert (Hi : i = 6%nat); [|rewrite Hi; reflexivity]. cbn [List.length map Vs30_array] in H1.
  do 16 (destruct i as [|i]; [first [reflexivity|exfalso; cbn [nth map Vs30_array] in H2; lra]|]). lia.
Qed.

(** ** C31 acceptance and clamping *)

(** The thresholds of the data base: no tables deeper than b for Vs30 above a. *)
Definition limits_table : list (R * R) := [(400, 750); (450, 600); (550, 450); (600, 300); (650, 150); (750, 75); (800, 36); (850, 16)].
Definition too_deep (v z : R) : Prop := Exists (fun ab => fst ab < v /\ snd ab < z) limits_table.
Definition clamp (lo hi x : R) : R := Rmin hi (Rmax lo x).

Lemma bad_combination_iff v z : bad_combination (Fin v) (Fin z) = true <-> too_deep v z.
Proof.
  unfold bad_combination, too_deep, limits_table. cbn [nltb]. split.
  - repeat match goal with |- context [if ?b then _ else _] => destruct b eqn:?; [intros _; repeat (first [apply Exists_cons_hd; cbn [fst snd];
      match goal with H : (_ && _)%bool = true |- _ => apply andb_true_iff in H; destruct H as [Hx Hy]; apply Rltb_true in Hx; apply Rltb_true in Hy; lra end|apply Exists_cons_tl])|] end. discriminate.
  - intros H. repeat match goal with |- context [if ?b then _ else _] => destruct b eqn:?; [reflexivity|] end. exfalso.
    repeat match goal with H : Exists _ (_ :: _) |- _ => apply Exists_cons in H; destruct H as [[Hx Hy]|H]; cbn [fst snd] in *;
      [apply Rltb_true in Hx; apply Rltb_true in Hy; rewrite Hx, Hy in *; discriminate|] end. inversion H.
Qed.

Lemma has_app s l1 l2 : has s (l1 ++ l2) = has s l1 || has s l2.
Proof. apply existsb_app. Qed.
Lemma has_if s (b : bool) (t : status) : has s (if b then [t] else []) = b && status_eqb s t.
Proof. destruct b; cbn; [rewrite orb_false_r|]; reflexivity. Qed.
Lemma range_has v z p :
  has Vs30_out (range_check v z p) = nltb v (Fin 175) || nltb (Fin 950) v /\
  has z1_out (range_check v z p) = nltb z (Fin 8) || nltb (Fin 900) z /\
  has PGA_out (range_check v z p) = nltb p (Fin (1/100)) || nltb (Fin (15/10)) p /\
  has Bad_combination (range_check v z p) = bad_combination v z.
Proof.
  unfold range_check. rewrite !has_app, !has_if. cbn [status_eqb]. rewrite !andb_true_r, !andb_false_r, !orb_false_r, !orb_false_l. auto.
Qed.

(** Strict mode accepts exactly the values inside the grid with an available depth,
    and stores them unchanged. *)
Theorem C31_strict : forall v z p,
  (175 <= v <= 950 /\ 8 <= z <= 900 /\ 1/100 <= p <= 15/10 /\ ~ too_deep v z ->
     site_new (PNum (Fin v)) (PNum (Fin z)) (PNum (Fin p)) false = Ok (mksite (Fin v) (Fin z) (Fin p))) /\
  (~ (175 <= v <= 950 /\ 8 <= z <= 900 /\ 1/100 <= p <= 15/10 /\ ~ too_deep v z) ->
     site_new (PNum (Fin v)) (PNum (Fin z)) (PNum (Fin p)) false = Err ValueError).
Proof.
  intros v z p. unfold site_new. destruct (range_has (Fin v) (Fin z) (Fin p)) as (-> & -> & -> & ->). cbn [nltb negb]. rewrite !andb_true_r. split.
  - intros (A & B & C & D). rewrite (proj2 (Rltb_false v 175)), (proj2 (Rltb_false 950 v)), (proj2 (Rltb_false z 8)), (proj2 (Rltb_false 900 z)), (proj2 (Rltb_false p (1/100))), (proj2 (Rltb_false (15/10) p)) by lra.
    cbn [orb]. destruct (bad_combination (Fin v) (Fin z)) eqn:E; [apply bad_combination_iff in E; contradiction|reflexivity].
  - intros N. destruct (Rltb_spec v 175), (Rltb_spec 950 v); cbn [orb]; try reflexivity. destruct (Rltb_spec z 8), (Rltb_spec 900 z); cbn [orb]; try reflexivity.
    destruct (Rltb_spec p (1/100)), (Rltb_spec (15/10) p); cbn [orb]; try reflexivity. destruct (bad_combination (Fin v) (Fin z)) eqn:E; [reflexivity|].
    exfalso. apply N. repeat split; try lra. intros D. apply bad_combination_iff in D. congruence.
Qed.

Lemma too_deep_clamp v z : too_deep (clamp 175 950 v) (clamp 8 900 z) <-> too_deep v z.
Proof.
  unfold too_deep, limits_table, clamp. rewrite !Exists_cons, !Exists_nil. cbn [fst snd].
  assert (K : forall lo hi a x, lo <= a < hi -> (a < Rmin hi (Rmax lo x) <-> a < x)).
  { intros lo hi a x H. unfold Rmin, Rmax. destruct (Rle_dec lo x), (Rle_dec hi _); split; lra. }
  rewrite !(K 175 950) by lra. rewrite !(K 8 900) by lra. reflexivity.
Qed.

(** Lenient mode is strict mode applied to the nearest values inside the grid. *)
Theorem C31_lenient : forall v z p,
  site_new (PNum (Fin v)) (PNum (Fin z)) (PNum (Fin p)) true =
  site_new (PNum (Fin (clamp 175 950 v))) (PNum (Fin (clamp 8 900 z))) (PNum (Fin (clamp (1/100) (15/10) p))) false.
Proof.
  intros v z p. unfold site_new at 1. destruct (range_has (Fin v) (Fin z) (Fin p)) as (-> & -> & -> & ->). cbn [nltb negb]. rewrite !andb_false_r.
  assert (K : forall lo hi x, lo < hi -> lo <= clamp lo hi x <= hi) by (intros lo hi x H; unfold clamp, Rmin, Rmax; destruct (Rle_dec lo x), (Rle_dec hi _); lra).
  assert (Q : forall lo hi x, lo < hi -> (if (Rltb x lo || Rltb hi x)%bool then (if Rltb x lo then Fin lo else Fin hi) else Fin x) = Fin (clamp lo hi x)).
  { intros lo hi x H. unfold clamp, Rmin, Rmax. destruct (Rltb_spec x lo), (Rltb_spec hi x); cbn [orb]; destruct (Rle_dec lo x), (Rle_dec hi _); f_equal; lra. }
  rewrite !Q by lra. destruct (C31_strict (clamp 175 950 v) (clamp 8 900 z) (clamp (1/100) (15/10) p)) as [S1 S2].
  pose proof (K 175 950 v ltac:(lra)). pose proof (K 8 900 z ltac:(lra)). pose proof (K (1/100) (15/10) p ltac:(lra)).
  destruct (bad_combination (Fin v) (Fin z)) eqn:E.
  - apply bad_combination_iff, too_deep_clamp in E. symmetry. apply S2. tauto.
  - symmetry. apply S1. repeat split; try lra. rewrite too_deep_clamp, <- bad_combination_iff. congruence.
Qed.

(** NaN passes the range check of both modes (finding): it is stored as it is. *)
Theorem C31_nan : forall z p lenient, 8 <= z <= 900 -> 1/100 <= p <= 15/10 ->
  site_new (PNum NaN) (PNum (Fin z)) (PNum (Fin p)) lenient = Ok (mksite NaN (Fin z) (Fin p)).
Proof.
  intros z p lenient Hz Hp. unfold site_new. destruct (range_has NaN (Fin z) (Fin p)) as (-> & -> & -> & ->). cbn [nltb orb andb].
  rewrite (proj2 (Rltb_false z 8)), (proj2 (Rltb_false 900 z)), (proj2 (Rltb_false p (1/100))), (proj2 (Rltb_false (15/10) p)) by lra. reflexivity.
Qed.
Theorem C31_not_a_number : forall v z p lenient, v = POther \/ z = POther \/ p = POther -> site_new v z p lenient = Err TypeError.
Proof. intros v z p lenient [->|[->| ->]]; [reflexivity|destruct v; reflexivity|destruct v, z; reflexivity]. Qed.

(** Infinite values are rejected in strict mode and clamped in lenient mode. *)
Theorem C31_infinite : forall z p, 8 <= z <= 16 -> 1/100 <= p <= 15/10 ->
  site_new (PNum PInf) (PNum (Fin z)) (PNum (Fin p)) false = Err ValueError /\
  site_new (PNum PInf) (PNum (Fin z)) (PNum (Fin p)) true = Ok (mksite (Fin 950) (Fin z) (Fin p)).
Proof.
  intros z p Hz Hp. unfold site_new. destruct (range_has PInf (Fin z) (Fin p)) as (-> & -> & -> & ->). cbn [nltb orb andb negb]. split; [reflexivity|].
  unfold bad_combination. cbn [nltb andb]. rewrite !andb_false_r. rewrite (proj2 (Rltb_false z 8)), (proj2 (Rltb_false p (1/100))), (proj2 (Rltb_false (15/10) p)) by lra.
  repeat rewrite (proj2 (Rltb_false _ z)) by lra. reflexivity.
Qed.

Example C31_instance : ~ too_deep 300 1000 /\ site_new (PNum (Fin 300)) (PNum (Fin 1000)) (PNum (Fin 2)) true = Ok (mksite (Fin 300) (Fin 900) (Fin (15/10))) /\
  site_new (PNum (Fin 300)) (PNum (Fin 1000)) (PNum (Fin 2)) false = Err ValueError /\ too_deep 460 601.
Proof.
  assert (N : forall z, ~ too_deep 300 z) by (intros z; unfold too_deep, limits_table; rewrite !Exists_cons, !Exists_nil; cbn; lra).
  split; [apply N|]. split; [|split].
  - rewrite C31_lenient. replace (clamp 175 950 300) with 300 by (unfold clamp, Rmin, Rmax; destruct (Rle_dec 175 300), (Rle_dec 950 _); lra).
    replace (clamp 8 900 1000) with 900 by (unfold clamp, Rmin, Rmax; destruct (Rle_dec 8 1000), (Rle_dec 900 _); lra).
    replace (clamp (1/100) (15/10) 2) with (15/10) by (unfold clamp, Rmin, Rmax; destruct (Rle_dec (1/100) 2), (Rle_dec (15/10) _); lra).
    apply C31_strict. repeat split; try lra. apply N.
  - apply C31_strict. intros (_ & H & _). lra.
  - unfold too_deep, limits_table. rewrite !Exists_cons. cbn. lra.
Qed.

(** ** C29 every accepted query finds its files *)

(** Infinite arguments behave as numbers just outside the grid. *)
Definition tame (lo hi : R) (x : num) : R := match x with Fin r => r | PInf => hi + 1 | NInf => lo - 1 | NaN => lo end.
Lemma tame_lt lo hi a x : x <> NaN -> lo <= a <= hi -> nltb (Fin a) x = Rltb a (tame lo hi x).
Proof. intros N H. destruct x; try contradiction; cbn [nltb tame]; [reflexivity|symmetry; apply Rltb_true; lra|symmetry; apply Rltb_false; lra]. Qed.
Lemma tame_gt lo hi a x : x <> NaN -> lo <= a <= hi -> nltb x (Fin a) = Rltb (tame lo hi x) a.
Proof. intros N H. destruct x; try contradiction; cbn [nltb tame]; [reflexivity|symmetry; apply Rltb_false; lra|symmetry; apply Rltb_true; lra]. Qed.
Lemma site_tame v z p lenient : v <> NaN -> z <> NaN -> p <> NaN -> forall s, site_new (PNum v) (PNum z) (PNum p) lenient = Ok s ->
  site_new (PNum (Fin (tame 175 950 v))) (PNum (Fin (tame 8 900 z))) (PNum (Fin (tame (1/100) (15/10) p))) lenient = Ok s.
Proof.
  intros Nv Nz Np s. unfold site_new. destruct (range_has v z p) as (-> & -> & -> & ->).
  destruct (range_has (Fin (tame 175 950 v)) (Fin (tame 8 900 z)) (Fin (tame (1/100) (15/10) p))) as (-> & -> & -> & ->).
  assert (B : bad_combination v z = bad_combination (Fin (tame 175 950 v)) (Fin (tame 8 900 z))).
  { unfold bad_combination. rewrite !(tame_lt 175 950 _ v), !(tame_lt 8 900 _ z) by (assumption || lra). reflexivity. }
  rewrite B. clear B. rewrite !(tame_lt 175 950 _ v), !(tame_gt 175 950 _ v), !(tame_lt 8 900 _ z), !(tame_gt 8 900 _ z), !(tame_lt (1/100) (15/10) _ p), !(tame_gt (1/100) (15/10) _ p) by (assumption || lra). cbn [nltb].
  destruct (_ && negb lenient)%bool eqn:E1; [discriminate|]. destruct (_ && negb lenient)%bool eqn:E2 in |- *; [discriminate|]. destruct (_ && negb lenient)%bool eqn:E3 in |- *; [discriminate|].
  destruct (bad_combination _ _); [discriminate|]. intros [= <-]. f_equal.
  assert (K : forall lo hi x, lo < hi -> x <> NaN -> Fin (if (Rltb (tame lo hi x) lo || Rltb hi (tame lo hi x))%bool then 0 else tame lo hi x) = (if (Rltb (tame lo hi x) lo || Rltb hi (tame lo hi x))%bool then Fin 0 else x)).
  { clear. intros lo hi x H N. destruct x; try contradiction; cbn [tame].
    - destruct (Rltb r lo || Rltb hi r)%bool; reflexivity.
    - rewrite (proj2 (Rltb_true hi (hi + 1))) by lra. rewrite orb_true_r. reflexivity.
    - rewrite (proj2 (Rltb_true (lo - 1) lo)) by lra. reflexivity. }
  pose proof (K 175 950 v ltac:(lra) Nv) as Kv. pose proof (K 8 900 z ltac:(lra) Nz) as Kz. pose proof (K (1/100) (15/10) p ltac:(lra) Np) as Kp.
  f_equal; [destruct (Rltb (tame 175 950 v) 175 || Rltb 950 (tame 175 950 v))%bool|destruct (Rltb (tame 8 900 z) 8 || Rltb 900 (tame 8 900 z))%bool|
    destruct (Rltb (tame (1/100) (15/10) p) (1/100) || Rltb (15/10) (tame (1/100) (15/10) p))%bool]; auto.
Qed.

(** What a constructed object looks like. *)
Lemma site_accepted v z p lenient s : v <> NaN -> z <> NaN -> p <> NaN -> site_new (PNum v) (PNum z) (PNum p) lenient = Ok s ->
  exists v' z' p', s = mksite (Fin v') (Fin z') (Fin p') /\ 175 <= v' <= 950 /\ 8 <= z' <= 900 /\ 1/100 <= p' <= 15/10 /\ ~ too_deep v' z'.
Proof.
  intros Nv Nz Np H. apply site_tame in H; auto.
  assert (T : forall v z p, site_new (PNum (Fin v)) (PNum (Fin z)) (PNum (Fin p)) false = Ok s -> exists v' z' p', s = mksite (Fin v') (Fin z') (Fin p') /\ 175 <= v' <= 950 /\ 8 <= z' <= 900 /\ 1/100 <= p' <= 15/10 /\ ~ too_deep v' z').
  { clear. intros v z p H. destruct (C31_strict v z p) as [A B].
    destruct (Rle_dec 175 v), (Rle_dec v 950), (Rle_dec 8 z), (Rle_dec z 900), (Rle_dec (1/100) p), (Rle_dec p (15/10)); try (exfalso; rewrite B in H; [discriminate|lra]).
    destruct (bad_combination (Fin v) (Fin z)) eqn:E.
    - apply bad_combination_iff in E. exfalso. rewrite B in H; [discriminate|tauto].
    - assert (D : ~ too_deep v z) by (rewrite <- bad_combination_iff; congruence). rewrite A in H by tauto. injection H as <-. exists v, z, p. tauto. }
  destruct lenient; [rewrite C31_lenient in H|]; eapply T; exact H.
Qed.

Definition data_files (w : what) : list string := match w with Amplif => amplif_files | Phase => phase_files end.
(** Combinations of kind, spectrum type and method the public methods can ask for. *)
Definition askable (w : what) (fourier : bool) (m : method) : bool :=
  match w, fourier, m with Amplif, _, nl_hh | Amplif, _, eq_hh | Phase, true, eq_hh => true | _, _, _ => false end.

Definition smem (s : string) (l : list string) : bool := existsb (String.eqb s) l.
Lemma smem_In s l : smem s l = true -> In s l.
Proof. unfold smem. intros H. apply existsb_exists in H. destruct H as (x & Hx & E). apply String.eqb_eq in E. subst. exact Hx. Qed.
Definition pair_ok (V Z : Z) : bool :=
  forallb (fun '(w, fourier, m) => negb (askable w fourier m) || (smem (y_filename w fourier m V Z) (data_files w) && smem (x_filename w fourier V Z) (data_files w)))%bool
    (list_prod (list_prod [Amplif; Phase] [true; false]) [nl_hh; eq_hh; eq_kz; bad_method]).
Definition limits_Z : list (Z * Z) := [(400, 750); (450, 600); (550, 450); (600, 300); (650, 150); (750, 75); (800, 36); (850, 16)]%Z.
Definition cell_ok (i j : nat) : bool :=
  existsb (fun ab => Z.leb (fst ab) (nth i Vs30_array 0) && Z.leb (snd ab) (nth j z1_array 0))%Z%bool limits_Z ||
  (pair_ok (nth i Vs30_array 0) (nth j z1_array 0) && pair_ok (nth i Vs30_array 0) (nth (S j) z1_array 0) &&
   pair_ok (nth (S i) Vs30_array 0) (nth j z1_array 0) && pair_ok (nth (S i) Vs30_array 0) (nth (S j) z1_array 0))%Z%bool.
Lemma cells_ok : forallb (fun i => forallb (cell_ok i) (seq 0 9)) (seq 0 16) = true.
Proof. vm_compute. reflexivity. Qed.

(** The eight neighbours of a query, in the order of the loop. *)
Definition corners (i j k : nat) : list (nat * nat * nat) :=
  [(i, j, k); (i, j, S k); (i, S j, k); (i, S j, S k); (S i, j, k); (S i, j, S k); (S i, S j, k); (S i, S j, S k)].
Definition gV (i : nat) : R := IZR (nth i Vs30_array 0%Z).
Definition gZ (i : nat) : R := IZR (nth i z1_array 0%Z).
Definition gP (i : nat) : R := nth i PGA_array 0.

Lemma nth_IZR l i : nth i (map IZR l) 0 = IZR (nth i l 0%Z).
Proof. change 0 with (IZR 0). apply map_nth. Qed.

Lemma locate_spec v z p : 175 <= v <= 950 -> 8 <= z <= 900 -> 1/100 <= p <= 15/10 ->
  exists i j k, locate_grids (mksite (Fin v) (Fin z) (Fin p)) = Ok (corners i j k) /\ (i < 16)%nat /\ (j < 9)%nat /\ (k < 10)%nat /\
    gV i <= v <= gV (S i) /\ gZ j <= z <= gZ (S j) /\ gP k <= p <= gP (S k) /\
    (v <> 175 -> gV i < v) /\ (z <> 8 -> gZ j < z) /\ (v = 175 -> i = 0%nat) /\ (z = 8 -> j = 0%nat) /\ (p <> 1/100 -> gP k < p) /\ (p = 1/100 -> k = 0%nat).
Proof.
  intros Hv Hz Hp.
  destruct (C28_search_brackets (map IZR Vs30_array) v Vs30_increasing) as (i & Ei & Li & Bi & Si & Zi); [cbn; lia|cbn [List.length map Vs30_array nth Nat.sub]; lra|].
  destruct (C28_search_brackets (map IZR z1_array) z z1_increasing) as (j & Ej & Lj & Bj & Sj & Zj); [cbn; lia|cbn [List.length map z1_array nth Nat.sub]; lra|].
  destruct (C28_search_brackets PGA_array p PGA_increasing) as (k & Ek & Lk & Bk & Sk & Zk); [cbn; lia|cbn [List.length PGA_array nth Nat.sub]; lra|].
  rewrite !nth_IZR in *. cbn [List.length map Vs30_array z1_array PGA_array] in Li, Lj, Lk.
  exists i, j, k. unfold locate_grids. cbn [s_Vs30 s_z1 s_PGA]. rewrite Ei. cbn [bind]. rewrite Ej. cbn [bind]. rewrite Ek. cbn [bind].
  split; [reflexivity|]. repeat split; try lia; try tauto; auto.
Qed.

Lemma in_corners i j k a : In a (corners i j k) -> (fst (fst a) = i \/ fst (fst a) = S i) /\ (snd (fst a) = j \/ snd (fst a) = S j) /\ (snd a = k \/ snd a = S k).
Proof. unfold corners. intros H. repeat (destruct H as [<-|H]; [cbn; auto|]). destruct H. Qed.

Lemma cell_files v z i j : (i < 16)%nat -> (j < 9)%nat -> ~ too_deep v z -> 175 <= v -> 8 <= z ->
  (v <> 175 -> gV i < v) -> (z <> 8 -> gZ j < z) -> (v = 175 -> i = 0%nat) -> (z = 8 -> j = 0%nat) ->
  forall i' j', i' = i \/ i' = S i -> j' = j \/ j' = S j -> pair_ok (nth i' Vs30_array 0%Z) (nth j' z1_array 0%Z) = true.
Proof.
  intros Hi Hj Hd Hv Hz Sv Sz Zv Zz i' j' Hi' Hj'. pose proof cells_ok as C. rewrite forallb_forall in C. specialize (C i (proj2 (in_seq 16 0 i) ltac:(lia))).
  rewrite forallb_forall in C. specialize (C j (proj2 (in_seq 9 0 j) ltac:(lia))). unfold cell_ok in C. apply orb_true_iff in C. destruct C as [C|C].
  - exfalso. apply existsb_exists in C. destruct C as ([a b] & Hab & E). cbn [fst snd] in E. apply andb_true_iff in E. destruct E as [E1 E2]. apply Z.leb_le, IZR_le in E1. apply Z.leb_le, IZR_le in E2.
    fold (gV i) in E1. fold (gZ j) in E2.
    assert (Ha : 175 < IZR a /\ 8 < IZR b) by (clear - Hab; cbn in Hab; repeat (destruct Hab as [Hab|Hab]; [injection Hab as <- <-; lra|]); destruct Hab).
    assert (V : gV i < v) by (apply Sv; intros Ev; rewrite (Zv Ev) in E1; unfold gV in E1; cbn [nth Vs30_array] in E1; lra).
    assert (Z : gZ j < z) by (apply Sz; intros Ez; rewrite (Zz Ez) in E2; unfold gZ in E2; cbn [nth z1_array] in E2; lra).
    apply Hd. unfold too_deep. apply Exists_exists. exists (IZR a, IZR b). split; [|cbn; lra].
    clear - Hab. cbn in Hab. unfold limits_table. repeat (destruct Hab as [Hab|Hab]; [injection Hab as <- <-; cbn [In]; tauto|]). destruct Hab.
  - apply andb_true_iff in C. destruct C as [C C4]. apply andb_true_iff in C. destruct C as [C C3]. apply andb_true_iff in C. destruct C as [C1 C2].
    destruct Hi' as [->| ->], Hj' as [->| ->]; assumption.
Qed.

Lemma pair_ok_spec V Z w fourier m : pair_ok V Z = true -> askable w fourier m = true ->
  In (y_filename w fourier m V Z) (data_files w) /\ In (x_filename w fourier V Z) (data_files w).
Proof.
  unfold pair_ok. intros H Ha. rewrite forallb_forall in H. specialize (H (w, fourier, m)). cbv beta iota in H. rewrite Ha in H. cbn [negb orb] in H.
  assert (E : (smem (y_filename w fourier m V Z) (data_files w) && smem (x_filename w fourier V Z) (data_files w))%bool = true).
  { apply H. apply in_prod; [apply in_prod; [destruct w|destruct fourier]|destruct m]; cbn; tauto. }
  apply andb_true_iff in E. destruct E. split; apply smem_In; assumption.
Qed.

Theorem C29_files_exist : forall v z p lenient s w fourier m, v <> NaN -> z <> NaN -> p <> NaN ->
  site_new (PNum v) (PNum z) (PNum p) lenient = Ok s -> askable w fourier m = true ->
  exists c, locate_grids s = Ok c /\ List.length c = 8%nat /\
    forall i j k, In (i, j, k) c -> exists V Z P, nth_error Vs30_array i = Some V /\ nth_error z1_array j = Some Z /\ nth_error PGA_array k = Some P /\
      In (y_filename w fourier m V Z) (data_files w) /\ In (x_filename w fourier V Z) (data_files w).
Proof.
  intros v z p lenient s w fourier m Nv Nz Np Hs Ha. destruct (site_accepted v z p lenient s Nv Nz Np Hs) as (v' & z' & p' & -> & Hv & Hz & Hp & Hd).
  destruct (locate_spec v' z' p' Hv Hz Hp) as (i & j & k & E & Hi & Hj & Hk & _ & _ & _ & Sv & Sz & Zv & Zz & _). exists (corners i j k). split; [exact E|]. split; [reflexivity|].
  intros i' j' k' Hin. apply in_corners in Hin. cbn [fst snd] in Hin. destruct Hin as (Hi' & Hj' & Hk').
  exists (nth i' Vs30_array 0%Z), (nth j' z1_array 0%Z), (nth k' PGA_array 0).
  split; [apply nth_error_nth'; cbn; lia|]. split; [apply nth_error_nth'; cbn; lia|]. split; [apply nth_error_nth'; cbn; lia|].
  apply pair_ok_spec; [|exact Ha]. apply (cell_files v' z' i j); auto; lra.
Qed.

(** Different grid points read different tables. *)
Theorem C29_files_distinct : forall w fourier m V Z V' Z', askable w fourier m = true ->
  In V Vs30_array -> In V' Vs30_array -> In Z z1_array -> In Z' z1_array ->
  y_filename w fourier m V Z = y_filename w fourier m V' Z' -> V = V' /\ Z = Z'.
Proof.
  intros w fourier m V Z V' Z' Ha HV HV' HZ HZ' E.
  assert (C : forall w fourier m, askable w fourier m = true ->
    forallb (fun a => forallb (fun b => negb (String.eqb (y_filename w fourier m (fst a) (snd a)) (y_filename w fourier m (fst b) (snd b))) || (Z.eqb (fst a) (fst b) && Z.eqb (snd a) (snd b)))%bool
      (list_prod Vs30_array z1_array)) (list_prod Vs30_array z1_array) = true).
  { clear. intros w fourier m Ha. destruct w, fourier, m; try discriminate; vm_compute; reflexivity. }
  specialize (C w fourier m Ha). rewrite forallb_forall in C. specialize (C (V, Z) (in_prod _ _ _ _ HV HZ)). rewrite forallb_forall in C. specialize (C (V', Z') (in_prod _ _ _ _ HV' HZ')).
  cbn [fst snd] in C. rewrite E, String.eqb_refl in C. cbn [negb orb] in C. apply andb_true_iff in C. destruct C as [C1 C2]. apply Z.eqb_eq in C1. apply Z.eqb_eq in C2. auto.
Qed.

(** An object holding NaN is constructed but can never be queried (finding). *)
Theorem C29_nan_never_returns : forall table axis gd z p lenient s w fourier m, 8 <= z <= 900 -> 1/100 <= p <= 15/10 ->
  site_new (PNum NaN) (PNum (Fin z)) (PNum (Fin p)) lenient = Ok s -> forall r, get_results table axis gd w s fourier m <> Ok r.
Proof.
  intros table axis gd z p lenient s w fourier m Hz Hp Hs r Hr. rewrite C31_nan in Hs by assumption. injection Hs as <-. unfold get_results in Hr.
  destruct (locate_grids _) as [c|]; [|discriminate]. cbn [bind] in Hr. destruct (query_all _ _ _ _ _ c) as [[[pts ys] x]|]; [|discriminate]. cbn [bind s_Vs30 fin_of] in Hr. discriminate.
Qed.

Example C29_instance : site_new (PNum (Fin 470)) (PNum (Fin 580)) (PNum (Fin (1/5))) false = Ok (mksite (Fin 470) (Fin 580) (Fin (1/5))) /\
  y_filename Amplif true nl_hh 500 600 = "500_600_af_fs_nl_hh_avg.csv" /\ x_filename Phase true 950 8 = "950_008_freq.csv" /\
  ~ In (y_filename Amplif true nl_hh 500 900) amplif_files.
Proof.
  split; [apply C31_strict; repeat split; try lra; unfold too_deep, limits_table; rewrite !Exists_cons, !Exists_nil; cbn; lra|].
  split; [reflexivity|]. split; [reflexivity|]. intros H. assert (E : smem (y_filename Amplif true nl_hh 500 900) amplif_files = true) by (apply existsb_exists; eexists; split; [exact H|apply String.eqb_refl]).
  vm_compute in E. discriminate.
Qed.

(** ** C30 interpolation *)

(** What scipy documents for linear interpolation, for the corners of a box: the
    value is the barycentric combination of the vertices of a simplex containing the
    query; the weights depend on the points only. *)
Definition wsum (w y : list R) : R := rsum (map (fun p => fst p * snd p) (combine w y)).
Definition box (v0 v1 z0 z1 p0 p1 : R) : list (R * R * R) :=
  [(v0, z0, p0); (v0, z0, p1); (v0, z1, p0); (v0, z1, p1); (v1, z0, p0); (v1, z0, p1); (v1, z1, p0); (v1, z1, p1)].
Definition barycentric (pts : list (R * R * R)) (q : R * R * R) (w : list R) : Prop :=
  List.length w = List.length pts /\ Forall (fun a => 0 <= a) w /\ rsum w = 1 /\
  wsum w (map (fun p => fst (fst p)) pts) = fst (fst q) /\ wsum w (map (fun p => snd (fst p)) pts) = snd (fst q) /\ wsum w (map snd pts) = snd q.
Definition linear_on_boxes (gd : list (R * R * R) -> list R -> R * R * R -> num) : Prop :=
  forall v0 v1 z0 z1 p0 p1 v z p, v0 < v1 -> z0 < z1 -> p0 < p1 -> v0 <= v <= v1 -> z0 <= z <= z1 -> p0 <= p <= p1 ->
  exists w, barycentric (box v0 v1 z0 z1 p0 p1) (v, z, p) w /\
    forall y, List.length y = 8%nat -> gd (box v0 v1 z0 z1 p0 p1) y (v, z, p) = Fin (wsum w y).

(** The hypothesis can be met: trilinear interpolation. *)
Definition tri_weights (pts : list (R * R * R)) (q : R * R * R) : list R :=
  let '(v0, z0, p0) := nth 0 pts (0, 0, 0) in
  let '(v1, z1, p1) := nth 7 pts (0, 0, 0) in
  let '(v, z, p) := q in
  let a := (v - v0) / (v1 - v0) in let b := (z - z0) / (z1 - z0) in let c := (p - p0) / (p1 - p0) in
  [(1-a)*(1-b)*(1-c); (1-a)*(1-b)*c; (1-a)*b*(1-c); (1-a)*b*c; a*(1-b)*(1-c); a*(1-b)*c; a*b*(1-c); a*b*c].
Example linear_on_boxes_instance : linear_on_boxes (fun pts y q => Fin (wsum (tri_weights pts q) y)).
Proof.
  intros v0 v1 z0 z1 p0 p1 v z p Hv Hz Hp Bv Bz Bp. exists (tri_weights (box v0 v1 z0 z1 p0 p1) (v, z, p)). split; [|reflexivity].
  cbn [tri_weights box nth]. set (a := (v - v0) / (v1 - v0)). set (b := (z - z0) / (z1 - z0)). set (c := (p - p0) / (p1 - p0)).
  assert (F : forall lo hi x, lo < hi -> lo <= x <= hi -> 0 <= (x - lo) / (hi - lo) <= 1).
  { intros lo hi x H Hx. split; [apply Rmult_le_pos; [lra|apply Rlt_le, Rinv_0_lt_compat; lra]|]. apply Rmult_le_reg_r with (hi - lo); [lra|]. unfold Rdiv. rewrite Rmult_assoc, Rinv_l; lra. }
  pose proof (F v0 v1 v Hv Bv) as Fa. pose proof (F z0 z1 z Hz Bz) as Fb. pose proof (F p0 p1 p Hp Bp) as Fc. fold a in Fa. fold b in Fb. fold c in Fc.
  assert (Ev : v = v0 + a * (v1 - v0)) by (unfold a; field; lra). assert (Ez : z = z0 + b * (z1 - z0)) by (unfold b; field; lra). assert (Ep : p = p0 + c * (p1 - p0)) by (unfold c; field; lra).
  clearbody a b c. unfold barycentric, wsum, box. cbn [List.length map combine rsum fst snd]. split; [reflexivity|]. split.
  - repeat (apply Forall_cons; [repeat apply Rmult_le_pos; lra|]); constructor.
  - rewrite Ev, Ez, Ep. repeat split; ring.
Qed.

Section C30.
Variable table : what -> string -> option (list (list R)).
Variable axis : what -> string -> option (list R).
Variable gd : list (R * R * R) -> list R -> R * R * R -> num.
Hypothesis Hgd : linear_on_boxes gd.

(** The tabulated row at grid indices. *)
Definition tab (w : what) (fourier : bool) (m : method) (a : nat * nat * nat) : option (list R) :=
  match table w (y_filename w fourier m (nth (fst (fst a)) Vs30_array 0%Z) (nth (snd (fst a)) z1_array 0%Z)) with
  | Some t => nth_error t (snd a)
  | None => None
  end.
Definition pt (a : nat * nat * nat) : R * R * R := (gV (fst (fst a)), gZ (snd (fst a)), gP (snd a)).

Lemma get_inv {A} (l : list A) i x d : get l i = Ok x -> nth i l d = x /\ (i < List.length l)%nat.
Proof.
  unfold get. destruct (nth_error l i) eqn:E; [|discriminate]. intros [= <-]. split; [apply nth_error_nth, E|apply nth_error_Some; congruence].
Qed.

Lemma query_all_spec w fourier m c : forall pts ys x, query_all table axis w fourier m c = Ok (pts, ys, x) ->
  pts = map pt c /\ Forall2 (fun a y => tab w fourier m a = Some y) c ys.
Proof.
  induction c as [|[[i j] k] c IH]; intros pts ys x H; cbn [query_all] in H; [injection H as <- <- <-; split; constructor|].
  destruct (get Vs30_array i) as [V|] eqn:EV; [cbn [bind] in H|discriminate]. destruct (get z1_array j) as [Z|] eqn:EZ; [cbn [bind] in H|discriminate].
  destruct (get PGA_array k) as [P|] eqn:EP; [cbn [bind] in H|discriminate]. destruct (query table axis w V Z k fourier m) as [[xx yy]|] eqn:Eq; [cbn [bind] in H|discriminate].
  destruct (query_all table axis w fourier m c) as [[[pts' ys'] x']|] eqn:Er; [cbn [bind snd fst] in H|discriminate]. injection H as <- <- _.
  destruct (IH pts' ys' x' eq_refl) as [-> F].
  apply (get_inv _ _ _ 0%Z) in EV. apply (get_inv _ _ _ 0%Z) in EZ. apply (get_inv _ _ _ 0) in EP. destruct EV as [EV _], EZ as [EZ _], EP as [EP _]. split.
  - cbn [map]. f_equal. unfold pt, gV, gZ, gP. cbn [fst snd]. rewrite EV, EZ, EP. reflexivity.
  - constructor; [|exact F]. unfold tab. cbn [fst snd]. rewrite EV, EZ. unfold query in Eq. destruct m; try discriminate;
      (destruct (table _ _) as [t|]; [cbn [of_option bind] in *|discriminate]; destruct (axis _ _); [cbn [of_option bind] in *|discriminate];
       unfold get in Eq; destruct (nth_error t k); [cbn [bind] in Eq; injection Eq as _ <-; reflexivity|discriminate]).
Qed.

Lemma Forall2_length {A B} (P : A -> B -> Prop) l1 l2 : Forall2 P l1 l2 -> List.length l1 = List.length l2.
Proof. induction 1; cbn; congruence. Qed.

Lemma results_spec w fourier m v z p x y : 175 <= v <= 950 -> 8 <= z <= 900 -> 1/100 <= p <= 15/10 ->
  get_results table axis gd w (mksite (Fin v) (Fin z) (Fin p)) fourier m = Ok (x, y) ->
  exists i j k ys wt, locate_grids (mksite (Fin v) (Fin z) (Fin p)) = Ok (corners i j k) /\ (i < 16)%nat /\ (j < 9)%nat /\ (k < 10)%nat /\
    gV i <= v <= gV (S i) /\ gZ j <= z <= gZ (S j) /\ gP k <= p <= gP (S k) /\
    Forall2 (fun a r => tab w fourier m a = Some r) (corners i j k) ys /\ barycentric (map pt (corners i j k)) (v, z, p) wt /\
    (List.length y <= List.length (hd [] ys))%nat /\ same_length ys = true /\
    forall n, (n < List.length y)%nat -> nth n y NaN = Fin (wsum wt (column ys n)).
Proof.
  intros Hv Hz Hp H. destruct (locate_spec v z p Hv Hz Hp) as (i & j & k & E & Hi & Hj & Hk & Bv & Bz & Bp & _).
  unfold get_results in H. rewrite E in H. cbn [bind] in H. destruct (query_all table axis w fourier m (corners i j k)) as [[[pts ys] xx]|] eqn:Eq; [cbn [bind] in H|discriminate].
  cbn [s_Vs30 s_z1 s_PGA fin_of bind] in H. destruct (query_all_spec _ _ _ _ _ _ _ Eq) as [-> F].
  unfold interpolate8 in H. destruct (same_length ys) eqn:Es; [cbn [bind] in H|discriminate].
  assert (GV : gV i < gV (S i)). { pose proof (Vs30_increasing i (S i)) as Q. rewrite !nth_IZR in Q. apply Q. cbn. lia. }
  assert (GZ : gZ j < gZ (S j)). { pose proof (z1_increasing j (S j)) as Q. rewrite !nth_IZR in Q. apply Q. cbn. lia. }
  assert (GP : gP k < gP (S k)) by (apply PGA_increasing; cbn; lia).
  destruct (Hgd (gV i) (gV (S i)) (gZ j) (gZ (S j)) (gP k) (gP (S k)) v z p GV GZ GP Bv Bz Bp) as (wt & Hw & Hval).
  exists i, j, k, ys, wt. split; [exact E|]. do 6 (split; [assumption|]). split; [exact F|]. split; [exact Hw|].
  assert (L8 : List.length ys = 8%nat) by (rewrite <- (Forall2_length _ _ _ F); reflexivity).
  assert (K : forall n, (n < List.length (hd [] ys))%nat -> nth n (map (fun i0 => gd (map pt (corners i j k)) (column ys i0) (v, z, p)) (seq 0 (List.length (hd [] ys)))) NaN = Fin (wsum wt (column ys n))).
  { intros n Hn. rewrite (nth_indep _ NaN (gd (map pt (corners i j k)) (column ys 0) (v, z, p))) by (rewrite map_length, seq_length; exact Hn).
    rewrite (map_nth (fun i0 => gd (map pt (corners i j k)) (column ys i0) (v, z, p))). rewrite seq_nth by exact Hn. cbn [Nat.add].
    change (map pt (corners i j k)) with (box (gV i) (gV (S i)) (gZ j) (gZ (S j)) (gP k) (gP (S k))). apply Hval. unfold column. rewrite map_length. exact L8. }
  destruct fourier; match type of H with Ok (_, ?b) = Ok (_, _) => assert (Ey : y = b) by congruence end; clear H; subst y.
  - rewrite firstn_length, map_length, seq_length. split; [lia|]. split; [exact Es|]. intros n Hn. 
    rewrite <- (firstn_skipn 140 (map _ (seq 0 (List.length (hd [] ys))))) in K. specialize (K n ltac:(lia)). rewrite app_nth1 in K; [exact K|]. rewrite firstn_length, map_length, seq_length. lia.
  - rewrite map_length, seq_length. split; [lia|]. split; [exact Es|]. intros n Hn. apply K, Hn.
Qed.

Lemma wsum_affine w y a b : List.length w = List.length y -> wsum w (map (fun t => a * t + b) y) = a * wsum w y + b * rsum w.
Proof. unfold wsum. revert y. induction w as [|u w IH]; intros [|t y] H; try discriminate; cbn [map combine rsum fst snd]; [ring|]. rewrite IH by (cbn in H; lia). ring. Qed.
Lemma wsum_bounds w y lo hi : List.length w = List.length y -> Forall (fun a => 0 <= a) w -> (forall t, In t y -> lo <= t <= hi) -> lo * rsum w <= wsum w y <= hi * rsum w.
Proof.
  unfold wsum. revert y. induction w as [|u w IH]; intros [|t y] H Hw Ht; try discriminate; cbn [map combine rsum fst snd]; [lra|].
  inversion Hw; subst. cbn in H. destruct (IH y ltac:(lia)) as [A B]; [assumption|intros; apply Ht; right; assumption|]. pose proof (Ht t (or_introl eq_refl)). nra.
Qed.

Lemma column_in ys n t : In t (column ys n) -> exists r, In r ys /\ t = nth n r 0.
Proof. unfold column. intros H. apply in_map_iff in H. destruct H as (r & <- & Hr). eauto. Qed.
Lemma Forall2_in_r {A B} (P : A -> B -> Prop) l1 l2 b : Forall2 P l1 l2 -> In b l2 -> exists a, In a l1 /\ P a b.
Proof. induction 1; intros Hb; [destruct Hb|]. destruct Hb as [->|Hb]; [eexists; split; [left; reflexivity|assumption]|]. destruct (IHForall2 Hb) as (a & ? & ?). eexists; split; [right|]; eassumption. Qed.

(** Every returned value lies between the tabulated values of the eight neighbours. *)
Theorem C30_between_neighbours : forall w fourier m v z p x y n, 175 <= v <= 950 -> 8 <= z <= 900 -> 1/100 <= p <= 15/10 ->
  get_results table axis gd w (mksite (Fin v) (Fin z) (Fin p)) fourier m = Ok (x, y) -> (n < List.length y)%nat ->
  exists c r, locate_grids (mksite (Fin v) (Fin z) (Fin p)) = Ok c /\ nth n y NaN = Fin r /\
    (forall lo hi, (forall a row, In a c -> tab w fourier m a = Some row -> lo <= nth n row 0 <= hi) -> lo <= r <= hi) /\
    (* exact for factors that vary linearly between the neighbours *)
    (forall A B C D, (forall a row, In a c -> tab w fourier m a = Some row -> nth n row 0 = A * gV (fst (fst a)) + B * gZ (snd (fst a)) + C * gP (snd a) + D) ->
       r = A * v + B * z + C * p + D).
Proof.
  intros w fourier m v z p x y n Hv Hz Hp H Hn. destruct (results_spec w fourier m v z p x y Hv Hz Hp H) as (i & j & k & ys & wt & E & _ & _ & _ & _ & _ & _ & F & (L & Pos & Sum & Cv & Cz & Cp) & _ & _ & K).
  exists (corners i j k), (wsum wt (column ys n)). split; [exact E|]. split; [apply K, Hn|].
  assert (LY : List.length wt = List.length (column ys n)) by (unfold column; rewrite map_length, <- (Forall2_length _ _ _ F), L, map_length; reflexivity). split.
  - intros lo hi Hb. pose proof (wsum_bounds wt (column ys n) lo hi LY Pos) as Q. rewrite Sum in Q.
    enough (lo * 1 <= wsum wt (column ys n) <= hi * 1) by lra. apply Q. intros t Ht. apply column_in in Ht. destruct Ht as (r & Hr & ->).
    destruct (Forall2_in_r _ _ _ _ F Hr) as (a & Ha & Et). eapply Hb; eauto.
  - intros A B C D Hlin. 
    assert (G : forall c ys, Forall2 (fun a r => tab w fourier m a = Some r) c ys -> (forall a row, In a c -> tab w fourier m a = Some row -> nth n row 0 = A * gV (fst (fst a)) + B * gZ (snd (fst a)) + C * gP (snd a) + D) ->
      forall wt, List.length wt = List.length c ->
      wsum wt (column ys n) = A * wsum wt (map (fun q => fst (fst q)) (map pt c)) + B * wsum wt (map (fun q => snd (fst q)) (map pt c)) + C * wsum wt (map snd (map pt c)) + D * rsum wt).
    { clear. unfold wsum, column. induction 1 as [|a r c ys Har F IH]; intros Hl [|u wt] HL; try discriminate; cbn [map combine rsum fst snd]; [ring|].
      rewrite IH; [|intros; eapply Hl; [right|]; eassumption|cbn in HL; lia]. rewrite (Hl a r (or_introl eq_refl) Har). unfold pt. cbn [fst snd]. ring. }
    rewrite (G _ _ F Hlin wt) by (rewrite L, map_length; reflexivity). rewrite Cv, Cz, Cp, Sum. cbn [fst snd]. ring.
Qed.

Lemma bracket_index (a : list R) i b : increasing a -> (S i < List.length a)%nat -> (b < List.length a)%nat -> nth i a 0 <= nth b a 0 <= nth (S i) a 0 -> b = i \/ b = S i.
Proof.
  intros Hi H1 H2 [A B]. destruct (Nat.lt_trichotomy b i) as [L|[L|L]]; [pose proof (Hi b i ltac:(lia)); lra|auto|].
  destruct (Nat.lt_trichotomy b (S i)) as [L'|[L'|L']]; [lia|auto|pose proof (Hi (S i) b ltac:(lia)); lra].
Qed.

(** At a grid point the tabulated value itself is returned. *)
Theorem C30_grid_points : forall w fourier m a b c x y n, (a < 17)%nat -> (b < 10)%nat -> (c < 11)%nat ->
  get_results table axis gd w (mksite (Fin (gV a)) (Fin (gZ b)) (Fin (gP c))) fourier m = Ok (x, y) -> (n < List.length y)%nat ->
  exists row, tab w fourier m (a, b, c) = Some row /\ nth n y NaN = Fin (nth n row 0).
Proof.
  intros w fourier m a b c x y n Ha Hb Hc H Hn.
  assert (MV : forall i, (i < 17)%nat -> 175 <= gV i <= 950).
  { intros i Hi. unfold gV. do 17 (destruct i as [|i]; [cbn [nth Vs30_array]; lra|]). lia. }
  assert (MZ : forall i, (i < 10)%nat -> 8 <= gZ i <= 900).
  { intros i Hi. unfold gZ. do 10 (destruct i as [|i]; [cbn [nth z1_array]; lra|]). lia. }
  assert (MP : forall i, (i < 11)%nat -> 1/100 <= gP i <= 15/10).
  { intros i Hi. unfold gP. do 11 (destruct i as [|i]; [cbn [nth PGA_array]; lra|]). lia. }
  destruct (results_spec w fourier m _ _ _ x y (MV a Ha) (MZ b Hb) (MP c Hc) H) as (i & j & k & ys & wt & E & Hi & Hj & Hk & Bv & Bz & Bp & F & (L & Pos & Sum & Cv & Cz & Cp) & _ & _ & K).
  assert (Ia : a = i \/ a = S i). { apply (bracket_index (map IZR Vs30_array)); [apply Vs30_increasing|cbn; lia|cbn; lia|]. rewrite !nth_IZR. exact Bv. }
  assert (Ib : b = j \/ b = S j). { apply (bracket_index (map IZR z1_array)); [apply z1_increasing|cbn; lia|cbn; lia|]. rewrite !nth_IZR. exact Bz. }
  assert (Ic : c = k \/ c = S k). { apply (bracket_index PGA_array); [apply PGA_increasing|cbn; lia|cbn; lia|exact Bp]. }
  assert (GV : gV i < gV (S i)). { pose proof (Vs30_increasing i (S i)) as Q. rewrite !nth_IZR in Q. apply Q. cbn. lia. }
  assert (GZ : gZ j < gZ (S j)). { pose proof (z1_increasing j (S j)) as Q. rewrite !nth_IZR in Q. apply Q. cbn. lia. }
  assert (GP : gP k < gP (S k)) by (apply PGA_increasing; cbn; lia).
  clear E Bv Bz Bp MV MZ MP H. specialize (K n Hn).
  inversion F as [|? y1 ? ? T1 F1]; subst; clear F. inversion F1 as [|? y2 ? ? T2 F2]; subst; clear F1. inversion F2 as [|? y3 ? ? T3 F3]; subst; clear F2. inversion F3 as [|? y4 ? ? T4 F4]; subst; clear F3.
  inversion F4 as [|? y5 ? ? T5 F5]; subst; clear F4. inversion F5 as [|? y6 ? ? T6 F6]; subst; clear F5. inversion F6 as [|? y7 ? ? T7 F7]; subst; clear F6. inversion F7 as [|? y8 ? ? T8 F8]; subst; clear F7.
  inversion F8; subst; clear F8.
  destruct wt as [|w1 [|w2 [|w3 [|w4 [|w5 [|w6 [|w7 [|w8 [|? ?]]]]]]]]]; try discriminate L. clear L.
  repeat match goal with H : Forall _ (_ :: _) |- _ => inversion H; subst; clear H end.
  unfold wsum in *. cbn [corners map pt fst snd combine rsum column] in *.
  set (V0 := gV i) in *. set (V1 := gV (S i)) in *. set (Z0 := gZ j) in *. set (Z1 := gZ (S j)) in *. set (P0 := gP k) in *. set (P1 := gP (S k)) in *.
  assert (Ev : (w5 + w6 + w7 + w8) * (V1 - V0) = gV a - V0) by nra.
  assert (Ez : (w3 + w4 + w7 + w8) * (Z1 - Z0) = gZ b - Z0) by nra.
  assert (Ep : (w2 + w4 + w6 + w8) * (P1 - P0) = gP c - P0) by nra.
  clear Cv Cz Cp.
  assert (S0 : forall s d, 0 < d -> s * d = 0 -> s = 0) by (intros s d Hd Hs; apply Rmult_integral in Hs; destruct Hs; lra).
  assert (S1 : forall s d, 0 < d -> s * d = d -> s = 1) by (intros s d Hd Hs; apply Rmult_eq_reg_r with d; lra).
  assert (Da : (a = i /\ w5 + w6 + w7 + w8 = 0) \/ (a = S i /\ w5 + w6 + w7 + w8 = 1)).
  { destruct Ia as [-> | ->]; [left|right]; (split; [reflexivity|]); [apply (S0 _ (V1 - V0)); [lra|fold V0 in Ev; lra]|apply (S1 _ (V1 - V0)); [lra|fold V1 in Ev; lra]]. }
  assert (Db : (b = j /\ w3 + w4 + w7 + w8 = 0) \/ (b = S j /\ w3 + w4 + w7 + w8 = 1)).
  { destruct Ib as [-> | ->]; [left|right]; (split; [reflexivity|]); [apply (S0 _ (Z1 - Z0)); [lra|fold Z0 in Ez; lra]|apply (S1 _ (Z1 - Z0)); [lra|fold Z1 in Ez; lra]]. }
  assert (Dc : (c = k /\ w2 + w4 + w6 + w8 = 0) \/ (c = S k /\ w2 + w4 + w6 + w8 = 1)).
  { destruct Ic as [-> | ->]; [left|right]; (split; [reflexivity|]); [apply (S0 _ (P1 - P0)); [lra|fold P0 in Ep; lra]|apply (S1 _ (P1 - P0)); [lra|fold P1 in Ep; lra]]. }
  clear Ev Ez Ep S0 S1 GV GZ GP Ia Ib Ic.
  destruct Da as [[-> Da]|[-> Da]], Db as [[-> Db]|[-> Db]], Dc as [[-> Dc]|[-> Dc]]; eexists; (split; [eassumption|]); rewrite K; f_equal;
    [assert (w1 = 1 /\ w2 = 0 /\ w3 = 0 /\ w4 = 0 /\ w5 = 0 /\ w6 = 0 /\ w7 = 0 /\ w8 = 0) as (-> & -> & -> & -> & -> & -> & -> & ->) by lra
    |assert (w1 = 0 /\ w2 = 1 /\ w3 = 0 /\ w4 = 0 /\ w5 = 0 /\ w6 = 0 /\ w7 = 0 /\ w8 = 0) as (-> & -> & -> & -> & -> & -> & -> & ->) by lra
    |assert (w1 = 0 /\ w2 = 0 /\ w3 = 1 /\ w4 = 0 /\ w5 = 0 /\ w6 = 0 /\ w7 = 0 /\ w8 = 0) as (-> & -> & -> & -> & -> & -> & -> & ->) by lra
    |assert (w1 = 0 /\ w2 = 0 /\ w3 = 0 /\ w4 = 1 /\ w5 = 0 /\ w6 = 0 /\ w7 = 0 /\ w8 = 0) as (-> & -> & -> & -> & -> & -> & -> & ->) by lra
    |assert (w1 = 0 /\ w2 = 0 /\ w3 = 0 /\ w4 = 0 /\ w5 = 1 /\ w6 = 0 /\ w7 = 0 /\ w8 = 0) as (-> & -> & -> & -> & -> & -> & -> & ->) by lra
    |assert (w1 = 0 /\ w2 = 0 /\ w3 = 0 /\ w4 = 0 /\ w5 = 0 /\ w6 = 1 /\ w7 = 0 /\ w8 = 0) as (-> & -> & -> & -> & -> & -> & -> & ->) by lra
    |assert (w1 = 0 /\ w2 = 0 /\ w3 = 0 /\ w4 = 0 /\ w5 = 0 /\ w6 = 0 /\ w7 = 1 /\ w8 = 0) as (-> & -> & -> & -> & -> & -> & -> & ->) by lra
    |assert (w1 = 0 /\ w2 = 0 /\ w3 = 0 /\ w4 = 0 /\ w5 = 0 /\ w6 = 0 /\ w7 = 0 /\ w8 = 1) as (-> & -> & -> & -> & -> & -> & -> & ->) by lra]; ring.
Qed.
End C30.

(** The premises of C30 are met by tables with constant values, for every site of the grid. *)
Definition flat_table (_ : what) (_ : string) : option (list (list R)) := Some (repeat [2; 3] 11).
Definition flat_axis (_ : what) (_ : string) : option (list R) := Some [1; 2].
Definition tri (pts : list (R * R * R)) (y : list R) (q : R * R * R) : num := Fin (wsum (tri_weights pts q) y).

(** ** C79 returned tables *)

Definition rows_ok (table : what -> string -> option (list (list R))) (axis : what -> string -> option (list R)) (w : what) (fourier : bool) (m : method) (n : nat) : Prop :=
  (forall V Z, In V Vs30_array -> In Z z1_array ->
     exists t, table w (y_filename w fourier m V Z) = Some t /\ List.length t = 11%nat /\ Forall (fun r => List.length r = n) t) /\
  (forall V Z, In V Vs30_array -> In Z z1_array ->
     exists x, axis w (x_filename w fourier V Z) = Some x /\ List.length x = n).

Section C79.
Variable table : what -> string -> option (list (list R)).
Variable axis : what -> string -> option (list R).
Variable gd : list (R * R * R) -> list R -> R * R * R -> num.

Definition good (m : method) : Prop := m <> bad_method.

Lemma query_all_ok w fourier m n c : m <> bad_method -> rows_ok table axis w fourier m n ->
  (forall a, In a c -> (fst (fst a) < 17)%nat /\ (snd (fst a) < 10)%nat /\ (snd a < 11)%nat) ->
  exists pts ys x, query_all table axis w fourier m c = Ok (pts, ys, x) /\ Forall (fun r => List.length r = n) ys /\ List.length ys = List.length c /\
    (c <> [] -> List.length x = n /\ exists a, In a c /\ axis w (x_filename w fourier (nth (fst (fst a)) Vs30_array 0%Z) (nth (snd (fst a)) z1_array 0%Z)) = Some x).
Proof.
  intros Hm [HT HX]. induction c as [|[[i j] k] c IH]; intros Hc; [exists [], [], []; repeat split; try constructor; intros; congruence|].
  destruct IH as (pts & ys & x & E & F & L & Hx); [intros; apply Hc; right; assumption|].
  destruct (Hc (i, j, k) (or_introl eq_refl)) as (Hi & Hj & Hk). cbn [fst snd] in Hi, Hj, Hk.
  cbn [query_all]. unfold get at 1. rewrite (nth_error_nth' Vs30_array 0%Z) by (cbn; lia). cbn [bind].
  unfold get at 1. rewrite (nth_error_nth' z1_array 0%Z) by (cbn; lia). cbn [bind]. unfold get at 1. rewrite (nth_error_nth' PGA_array 0) by (cbn; lia). cbn [bind].
  set (V := nth i Vs30_array 0%Z). set (Z := nth j z1_array 0%Z).
  assert (IV : In V Vs30_array) by (apply nth_In; cbn; lia). assert (IZ : In Z z1_array) by (apply nth_In; cbn; lia).
  destruct (HT V Z IV IZ) as (t & Et & Lt & Ft). destruct (HX V Z IV IZ) as (x0 & Ex & Lx).
  assert (Eq : query table axis w V Z k fourier m = Ok (x0, nth k t [])).
  { unfold query. rewrite Et, Ex. cbn [of_option bind]. unfold get. rewrite (nth_error_nth' t []) by (rewrite Lt; exact Hk). destruct m; [reflexivity..|congruence]. }
  rewrite Eq. cbn [bind]. rewrite E. cbn [bind fst snd]. eexists _, _, _. split; [reflexivity|]. split; [constructor; [|exact F]|].
  - rewrite Forall_forall in Ft. apply Ft, nth_In. lia.
  - split; [cbn [List.length]; congruence|]. intros _. destruct c as [|a c'].
    + split; [exact Lx|]. exists (i, j, k). split; [left; reflexivity|]. exact Ex.
    + destruct (Hx ltac:(discriminate)) as (Q & a0 & Ha & Ea). split; [exact Q|]. exists a0. split; [right; exact Ha|exact Ea].
Qed.

Lemma same_length_ok n ys : Forall (fun r : list R => List.length r = n) ys -> same_length ys = true.
Proof.
  destruct 1 as [|y ys Hy F]; [reflexivity|]. cbn [same_length]. apply forallb_forall. intros r Hr. rewrite Forall_forall in F. apply Nat.eqb_eq. rewrite (F r Hr). congruence.
Qed.

Lemma results_ok w fourier m n v z p : m <> bad_method -> rows_ok table axis w fourier m n -> 175 <= v <= 950 -> 8 <= z <= 900 -> 1/100 <= p <= 15/10 ->
  exists x y V Z, get_results table axis gd w (mksite (Fin v) (Fin z) (Fin p)) fourier m = Ok (x, y) /\
    List.length x = (if fourier then Nat.min 140 n else n) /\ List.length y = List.length x /\
    In V Vs30_array /\ In Z z1_array /\ exists x0, axis w (x_filename w fourier V Z) = Some x0 /\ x = (if fourier then firstn 140 x0 else x0).
Proof.
  intros Hm HR Hv Hz Hp. destruct (locate_spec v z p Hv Hz Hp) as (i & j & k & E & Hi & Hj & Hk & _).
  assert (C : forall a, In a (corners i j k) -> (fst (fst a) < 17)%nat /\ (snd (fst a) < 10)%nat /\ (snd a < 11)%nat).
  { intros a Ha. unfold corners in Ha. cbn [In] in Ha. repeat destruct Ha as [<-|Ha]; cbn [fst snd]; lia. }
  destruct (query_all_ok w fourier m n (corners i j k) Hm HR C) as (pts & ys & x & Eq & F & L & Hx). destruct (Hx ltac:(discriminate)) as (Lx & a & Ha & Ea).
  destruct (C a Ha) as (Ca & Cb & Cc).
  assert (Lh : List.length (hd [] ys) = n). { destruct ys as [|y0 ys']; [discriminate L|]. inversion F; assumption. }
  set (y := map (fun i0 => gd pts (column ys i0) (v, z, p)) (seq 0 (List.length (hd [] ys)))).
  assert (ER : get_results table axis gd w (mksite (Fin v) (Fin z) (Fin p)) fourier m = Ok (if fourier then (firstn 140 x, firstn 140 y) else (x, y))).
  { unfold get_results. rewrite E. cbn [bind]. rewrite Eq. cbn [bind s_Vs30 s_z1 s_PGA fin_of]. unfold interpolate8. rewrite (same_length_ok n ys F). reflexivity. }
  assert (Ly : List.length y = n) by (unfold y; rewrite map_length, seq_length; exact Lh). clearbody y.
  exists (if fourier then firstn 140 x else x), (if fourier then firstn 140 y else y), (nth (fst (fst a)) Vs30_array 0%Z), (nth (snd (fst a)) z1_array 0%Z).
  rewrite ER. split; [destruct fourier; reflexivity|]. split; [destruct fourier; [rewrite firstn_length; congruence|exact Lx]|].
  split; [destruct fourier; [rewrite !firstn_length; congruence|congruence]|]. split; [apply nth_In; cbn; lia|]. split; [apply nth_In; cbn; lia|].
  exists x. split; [exact Ea|reflexivity].
Qed.

(** Over complete data files, a query never fails, and Fourier results have at most
    140 rows, in the order of the frequency file; response-spectrum results are
    indexed by the reciprocals of the periods, reversed. *)
Theorem C79_amplification_succeeds : forall m fourier n v z p, (m = nl_hh \/ m = eq_hh) -> rows_ok table axis Amplif fourier m n ->
  175 <= v <= 950 -> 8 <= z <= 900 -> 1/100 <= p <= 15/10 ->
  exists t V Z x0, get_amplification table axis gd (mksite (Fin v) (Fin z) (Fin p)) m fourier = Ok t /\
    In V Vs30_array /\ In Z z1_array /\ axis Amplif (x_filename Amplif fourier V Z) = Some x0 /\
    map fst t = (if fourier then firstn 140 x0 else rev (map (fun q => 1 / q) x0)) /\
    List.length t = (if fourier then Nat.min 140 n else n).
Proof.
  intros m fourier n v z p Hm HR Hv Hz Hp.
  destruct (results_ok Amplif fourier m n v z p) as (x & y & V & Z & E & Lx & Ly & IV & IZ & x0 & Ex & Hx); try assumption; [destruct Hm; subst; discriminate|].
  assert (MF : forall (A B : Type) (l1 : list A) (l2 : list B), List.length l2 = List.length l1 -> map fst (combine l1 l2) = l1).
  { clear. intros A B l1. induction l1 as [|a l1 IH]; intros [|b l2] H; try discriminate; [reflexivity|]. cbn [combine map fst]. f_equal. apply IH. cbn in H. lia. }
  exists (if fourier then combine x y else rev (combine (map (fun t => 1 / t) x) y)), V, Z, x0. split.
  - destruct Hm as [-> | ->]; cbn [get_amplification]; rewrite E; cbn [bind]; rewrite Ly, Nat.eqb_refl; reflexivity.
  - split; [exact IV|]. split; [exact IZ|]. split; [exact Ex|]. destruct fourier; split.
    + rewrite MF by exact Ly. exact Hx.
    + rewrite combine_length, Ly, Nat.min_id. exact Lx.
    + rewrite map_rev, MF by (rewrite map_length; exact Ly). congruence.
    + rewrite rev_length, combine_length, map_length, Ly, Nat.min_id. exact Lx.
Qed.

(** Positive increasing periods give positive increasing frequencies. *)
Theorem C79_frequencies_increase : forall m n v z p t, (m = nl_hh \/ m = eq_hh) -> rows_ok table axis Amplif false m n ->
  (forall V Z x0, In V Vs30_array -> In Z z1_array -> axis Amplif (x_filename Amplif false V Z) = Some x0 -> increasing x0 /\ Forall (fun q => 0 < q) x0) ->
  175 <= v <= 950 -> 8 <= z <= 900 -> 1/100 <= p <= 15/10 ->
  get_amplification table axis gd (mksite (Fin v) (Fin z) (Fin p)) m false = Ok t -> increasing (map fst t) /\ Forall (fun q => 0 < q) (map fst t).
Proof.
  intros m n v z p t Hm HR HI Hv Hz Hp H. destruct (C79_amplification_succeeds m false n v z p Hm HR Hv Hz Hp) as (t' & V & Z & x0 & E & IV & IZ & Ex & Et & _).
  assert (t' = t) by congruence. subst t'. rewrite Et. destruct (HI V Z x0 IV IZ Ex) as [Inc Pos]. rewrite Forall_forall in Pos. split.
  - intros i j Hij. rewrite rev_length, map_length in Hij.
    rewrite !rev_nth by (rewrite map_length; lia). rewrite map_length.
    rewrite !(nth_indep (map _ x0) 0 (1 / 0)) by (rewrite map_length; lia). rewrite !(map_nth (fun q => 1 / q)).
    pose proof (Inc (List.length x0 - S j)%nat (List.length x0 - S i)%nat ltac:(lia)) as Q.
    assert (P : 0 < nth (List.length x0 - S j) x0 0) by (apply Pos, nth_In; lia).
    unfold Rdiv. rewrite !Rmult_1_l. apply Rinv_lt_contravar; [|exact Q]. apply Rmult_lt_0_compat; lra.
  - apply Forall_forall. intros q Hq. apply in_rev in Hq. apply in_map_iff in Hq. destruct Hq as (u & <- & Hu). specialize (Pos u Hu). unfold Rdiv. rewrite Rmult_1_l. apply Rinv_0_lt_compat, Pos.
Qed.

Theorem C79_phase_and_both : forall m v z p n n', (m = nl_hh \/ m = eq_hh) -> rows_ok table axis Amplif true m n -> rows_ok table axis Phase true eq_hh n' ->
  175 <= v <= 950 -> 8 <= z <= 900 -> 1/100 <= p <= 15/10 ->
  exists a t, get_both table axis gd (mksite (Fin v) (Fin z) (Fin p)) m = Ok (a, t) /\
    get_amplification table axis gd (mksite (Fin v) (Fin z) (Fin p)) m true = Ok a /\
    get_phase_shift table axis gd (mksite (Fin v) (Fin z) (Fin p)) eq_hh = Ok t /\
    List.length a = Nat.min 140 n /\ List.length t = Nat.min 140 n'.
Proof.
  intros m v z p n n' Hm HA HP Hv Hz Hp. destruct (C79_amplification_succeeds m true n v z p Hm HA Hv Hz Hp) as (a & _ & _ & _ & E & _ & _ & _ & _ & La).
  destruct (results_ok Phase true eq_hh n' v z p ltac:(discriminate) HP Hv Hz Hp) as (x & y & V & Z & E' & Lx & Ly & _).
  exists a, (combine x y).
  assert (EP : get_phase_shift table axis gd (mksite (Fin v) (Fin z) (Fin p)) eq_hh = Ok (combine x y)).
  { cbn [get_phase_shift]. rewrite E'. cbn [bind]. rewrite Ly, Nat.eqb_refl. reflexivity. }
  split; [unfold get_both; rewrite E; cbn [bind]; rewrite EP; reflexivity|]. split; [exact E|]. split; [exact EP|]. split; [exact La|]. rewrite combine_length, Ly, Nat.min_id. exact Lx.
Qed.

(** Methods outside the documented ones are refused, for every site and every data. *)
Theorem C79_methods_refused : forall s m fourier, 
  (m <> nl_hh -> m <> eq_hh -> get_amplification table axis gd s m fourier = Err ValueError) /\
  (m <> eq_hh -> get_phase_shift table axis gd s m = Err ValueError).
Proof. intros s m fourier. destruct m; split; intros; try congruence; reflexivity. Qed.
End C79.

Lemma flat_ok w fourier m : rows_ok flat_table flat_axis w fourier m 2.
Proof.
  split; intros V Z _ _.
  - exists (repeat [2; 3] 11). split; [reflexivity|]. split; [reflexivity|]. apply Forall_forall. intros r Hr. apply repeat_spec in Hr. subst. reflexivity.
  - exists [1; 2]. split; reflexivity.
Qed.

(** All premises of C79 and C30 together. *)
Example C30_instance : exists t, get_amplification flat_table flat_axis tri (mksite (Fin 300) (Fin 100) (Fin (3/10))) nl_hh false = Ok t /\ List.length t = 2%nat /\
  exists x y, get_results flat_table flat_axis tri Amplif (mksite (Fin 300) (Fin 100) (Fin (3/10))) false nl_hh = Ok (x, y) /\ nth 1 y NaN = Fin 3.
Proof.
  destruct (C79_amplification_succeeds flat_table flat_axis tri nl_hh false 2 300 100 (3/10)) as (t & V & Z & x0 & E & _ & _ & _ & _ & L); try lra; [left; reflexivity|apply flat_ok|].
  exists t. split; [exact E|]. split; [exact L|].
  destruct (results_ok flat_table flat_axis tri Amplif false nl_hh 2 300 100 (3/10)) as (x & y & _ & _ & E' & Lx & Ly & _); try lra; [discriminate|apply flat_ok|].
  exists x, y. split; [exact E'|].
  destruct (C30_between_neighbours flat_table flat_axis tri linear_on_boxes_instance Amplif false nl_hh 300 100 (3/10) x y 1) as (c & r & Ec & Er & B & _); try lra; [exact E'|lia|].
  rewrite Er. f_equal. assert (3 <= r <= 3) as K; [|lra]. apply B. intros a row Ha Ht. unfold tab, flat_table in Ht. apply nth_error_In in Ht. apply repeat_spec in Ht. subst. cbn. lra.
Qed.

Example C79_instance : increasing [1; 2] /\ Forall (fun q => 0 < q) [1; 2] /\ exists t, get_amplification flat_table flat_axis tri (mksite (Fin 300) (Fin 100) (Fin (3/10))) nl_hh false = Ok t /\ map fst t = [1 / 2; 1 / 1].
Proof.
  split; [|split].
  - intros i j H. cbn in H. assert (i = 0 /\ j = 1)%nat as [-> ->] by lia. cbn. lra.
  - repeat (apply Forall_cons; [lra|]). constructor.
  - destruct (C79_amplification_succeeds flat_table flat_axis tri nl_hh false 2 300 100 (3/10)) as (t & V & Z & x0 & E & _ & _ & Ex & Et & L); try lra; [left; reflexivity|apply flat_ok|].
    exists t. split; [exact E|]. rewrite Et. injection Ex as <-. reflexivity.
Qed.
