(** C107: queries of a velocity profile in double precision. *)
From Coq Require Import Reals List Bool ZArith Lia Lra Psatz.
From Flocq Require Import Core IEEE754.BinarySingleNaN Plus_error Relative Sterbenz.
From Verif Require Import Base M_float P_float Prop_fdepth Prop_fcount M_fquery.
Import ListNotations.
Open Scope R_scope.

(** ** The search *)
Lemma flt_not_fle x v : fle f0 x = true -> fle f0 v = true -> flt v x = negb (fle x v).
Proof.
  intros Hx Hv. destruct (ge0_cases x Hx) as [[Fx Vx]| ->].
  - destruct (ge0_cases v Hv) as [[Fv Vv]| ->].
    + destruct (flt v x) eqn:A, (fle x v) eqn:B; try reflexivity.
      * apply flt_val in A; auto. apply fle_val in B; auto. lra.
      * exfalso. destruct (Rle_lt_dec (val x) (val v)) as [C|C]; [apply fle_val in C; auto; congruence|apply flt_val in C; auto; congruence].
    + rewrite fle_inf by (destruct x as [s|[|]| |s m e W]; try reflexivity; discriminate Hx). destruct x as [s|[|]| |s m e W]; reflexivity || discriminate.
  - destruct (ge0_cases v Hv) as [[Fv Vv]| ->]; [|reflexivity]. destruct v as [s|[|]| |s m e W]; reflexivity || discriminate.
Qed.
Lemma ge0_not_nan x : fle f0 x = true -> fnan x = false.
Proof. intros H. destruct x as [s|[|]| |s m e W]; reflexivity || discriminate. Qed.
Lemma le_last_fle x v : fle f0 x = true -> fle f0 v = true -> le_last x v = fle x v.
Proof. intros Hx Hv. unfold le_last. rewrite flt_not_fle, (ge0_not_nan x) by assumption. destruct (fle x v); reflexivity. Qed.

Lemma bisect_spec fuel a v lo hi : (lo <= hi <= length a)%nat -> (hi - lo < fuel)%nat ->
  (forall i j, (i <= j < length a)%nat -> le_last (nth j a f0) v = true -> le_last (nth i a f0) v = true) ->
  (forall i, (i < lo)%nat -> le_last (nth i a f0) v = true) -> (forall i, (hi <= i < length a)%nat -> le_last (nth i a f0) v = false) ->
  (bisect fuel a v lo hi <= length a)%nat /\ forall i, (i < length a)%nat -> le_last (nth i a f0) v = Nat.ltb i (bisect fuel a v lo hi).
Proof.
  intros B F M. revert lo hi B F. induction fuel as [|fuel IH]; intros lo hi B F HL HH; [lia|]. cbn [bisect].
  destruct (Nat.ltb_spec lo hi) as [C|C].
  - cbv zeta. set (m := (lo + (hi - lo) / 2)%nat). assert (Hm : (lo <= m < hi)%nat).
    { unfold m. pose proof (Nat.div_lt (hi - lo) 2 ltac:(lia) ltac:(lia)). lia. }
    clearbody m. destruct (le_last (nth m a f0) v) eqn:E.
    + apply IH; [lia|lia| |exact HH]. intros i Hi. apply (M i m); [lia|exact E].
    + apply IH; [lia|lia|exact HL|]. intros i Hi. destruct (le_last (nth i a f0) v) eqn:Q; [|reflexivity]. rewrite (M m i) in E; [discriminate|lia|exact Q].
  - split; [lia|]. intros i Hi. destruct (Nat.ltb_spec i lo) as [D|D]; [apply HL, D|apply HH; lia].
Qed.

(** On a sorted array of numbers from 0 on, the search counts the entries up to [v]. *)
Theorem C107_search : forall a v, Forall (fun d => fle f0 d = true) a -> (forall i j, (i <= j < length a)%nat -> fle (nth i a f0) (nth j a f0) = true) ->
  fle f0 v = true -> (search_right a v <= length a)%nat /\ forall i, (i < length a)%nat -> (fle (nth i a f0) v = true <-> (i < search_right a v)%nat).
Proof.
  intros a v P S V. rewrite Forall_forall in P. assert (P' : forall i, (i < length a)%nat -> fle f0 (nth i a f0) = true) by (intros i Hi; apply P, nth_In, Hi).
  destruct (bisect_spec (Datatypes.S (length a)) a v 0 (length a)) as [L R]; [lia|lia| |lia|lia|].
  - intros i j Hij. rewrite !le_last_fle by (auto; apply P'; lia). intros E. eapply fle_trans0; [apply P'; lia|apply (P' j); lia|exact V|apply S, Hij|exact E].
  - split; [exact L|]. intros i Hi. rewrite <- (le_last_fle _ v) by auto. rewrite (R i Hi). apply Nat.ltb_lt.
Qed.
(** NaN is looked for behind everything. *)
Lemma flt_nan x : flt B754_nan x = false. Proof. destruct x as [s|[|]| |s m e W]; reflexivity. Qed.
Lemma search_nan a : search_right a B754_nan = length a.
Proof.
  assert (N : forall x, le_last x B754_nan = true) by (intros x; unfold le_last; rewrite flt_nan; cbn; rewrite andb_false_r; reflexivity).
  destruct (bisect_spec (S (length a)) a B754_nan 0 (length a)) as [L R]; [lia|lia|intros; apply N|lia|lia|].
  fold (search_right a B754_nan) in *. destruct (Nat.eq_dec (length a) 0) as [Z|Z]; [lia|]. specialize (R (length a - 1)%nat ltac:(lia)). rewrite N in R. symmetry in R. apply Nat.ltb_lt in R. lia.
Qed.

(** ** Velocities at depths *)
(** Specification: the layer that holds a depth, its top being inside and its bottom not; the
    last layer has no bottom. *)
Definition holds (dep : list f64) (z : f64) (i : nat) : Prop :=
  (i < length dep)%nat /\ fle (nth i dep f0) z = true /\ ((S i < length dep)%nat -> fle (nth (S i) dep f0) z = false).

Lemma thk2dep_some (thk : list f64) : thk <> [] -> thk2dep_f thk false = Ok (tops f0 thk).
Proof. destruct thk; [contradiction|reflexivity]. Qed.
Lemma holds_index dep z i : Forall (fun d => fle f0 d = true) dep -> (forall i j, (i <= j < length dep)%nat -> fle (nth i dep f0) (nth j dep f0) = true) ->
  fle f0 z = true -> holds dep z i -> Nat.pred (search_right dep z) = i.
Proof.
  intros P S V (L & A & B). destruct (C107_search dep z P S V) as [K C]. apply (C i L) in A.
  destruct (Nat.eq_dec (Datatypes.S i) (length dep)) as [D|D]; [lia|]. specialize (B ltac:(lia)).
  assert (~ (Datatypes.S i < search_right dep z)%nat); [|lia]. intros Q. apply C in Q; [congruence|lia].
Qed.
Lemma holds_search dep z : Forall (fun d => fle f0 d = true) dep -> (forall i j, (i <= j < length dep)%nat -> fle (nth i dep f0) (nth j dep f0) = true) ->
  fle f0 z = true -> dep <> [] -> fle (nth 0 dep f0) z = true -> holds dep z (Nat.pred (search_right dep z)).
Proof.
  intros P S V Ne A. destruct (C107_search dep z P S V) as [K C]. assert (L0 : (0 < length dep)%nat) by (destruct dep; [contradiction|cbn; lia]).
  apply (C 0%nat L0) in A. split; [lia|]. split; [apply C; lia|]. intros Q. match goal with |- ?x = false => destruct x eqn:E; [|reflexivity] end. apply C in E; lia.
Qed.
Lemma neg_ok z : fnan z = false -> flt z f0 = false -> fle f0 z = true.
Proof. intros N L. destruct z as [s|[|]| |s m e W]; try reflexivity; try discriminate. - destruct s; [|reflexivity]. vm_compute in L. discriminate. Qed.
Lemma query_ok p zs vs : query_f p zs = Ok vs -> p <> [] /\ Forall (fun z => flt z f0 = false) zs /\
  vs = map (fun z => nth (Nat.pred (search_right (tops f0 (map fst p)) z)) (map snd p) f0) zs.
Proof.
  unfold query_f. destruct (existsb (fun z => flt z f0) zs) eqn:E; [discriminate|]. intros H. destruct p as [|r p]; [discriminate|]. split; [discriminate|]. split.
  - apply Forall_forall. intros z Hz. destruct (flt z f0) eqn:Q; [|reflexivity]. assert (X : existsb (fun z => flt z f0) zs = true) by (apply existsb_exists; exists z; auto). congruence.
  - rewrite thk2dep_some in H by discriminate. cbn [bind] in H. symmetry. exact (f_equal (fun x => match x with Ok y => y | Err _ => [] end) H).
Qed.

(** Which queries are answered. *)
Theorem C107_accepts : forall p zs, (exists vs, query_f p zs = Ok vs) <-> p <> [] /\ Forall (fun z => flt z f0 = false) zs.
Proof.
  intros p zs. split.
  - intros [vs H]. apply query_ok in H as (A & B & _). auto.
  - intros [Ne F]. unfold query_f. assert (E : existsb (fun z => flt z f0) zs = false).
    { destruct (existsb _ zs) eqn:Q; [|reflexivity]. apply existsb_exists in Q as (z & Hz & Lz). rewrite Forall_forall in F. rewrite (F z Hz) in Lz. discriminate. }
    rewrite E, thk2dep_some by (destruct p; [contradiction|discriminate]). eexists. reflexivity.
Qed.

(** Every answer is the velocity of the layer that holds the depth, in terms of the depths the
    library itself computes; for all thicknesses that are not negative. *)
Theorem C107_layer : forall p zs vs dep, Forall (fun r => fle f0 (fst r) = true) p -> query_f p zs = Ok vs -> thk2dep_f (map fst p) false = Ok dep ->
  length vs = length zs /\ forall j, (j < length zs)%nat -> fnan (nth j zs f0) = false ->
    exists i, holds dep (nth j zs f0) i /\ (i < length p)%nat /\ nth j vs f0 = snd (nth i p (f0, f0)) /\ forall i', holds dep (nth j zs f0) i' -> i' = i.
Proof.
  intros p zs vs dep H E D. apply query_ok in E as (Ne & NN & ->). split; [apply map_length|]. intros j Hj N.
  assert (HT : Forall (fun t => fle f0 t = true) (map fst p)) by (apply Forall_map; exact H).
  destruct (C103_depths_ordered _ _ HT D) as (Len & Z0 & Pd & Sd). apply thk2dep_tops in D as [Ne' ->]. rewrite map_length in Len.
  rewrite Forall_forall in NN. pose proof (neg_ok _ N (NN _ (nth_In zs f0 Hj))) as V. set (z := nth j zs f0) in *.
  assert (Hd : tops f0 (map fst p) <> []) by (destruct p; [contradiction|discriminate]).
  pose proof (holds_search _ z Pd Sd V Hd ltac:(rewrite Z0; exact V)) as HS. exists (Nat.pred (search_right (tops f0 (map fst p)) z)).
  split; [exact HS|]. destruct HS as [L _]. rewrite Len in L. split; [exact L|]. split.
  - rewrite (nth_indep _ f0 ((fun z => nth (Nat.pred (search_right (tops f0 (map fst p)) z)) (map snd p) f0) f0)) by (rewrite map_length; exact Hj).
    rewrite (map_nth (fun z => nth (Nat.pred (search_right (tops f0 (map fst p)) z)) (map snd p) f0)). fold z. change f0 with (snd (f0, f0)) at 2. apply map_nth.
  - intros i' H'. symmetry. apply holds_index; assumption.
Qed.
(** The depth NaN is not refused: the answer is the velocity of the last layer. *)
Theorem C107_nan_accepted : forall p, p <> [] -> query_f p [B754_nan] = Ok [snd (last p (f0, f0))].
Proof.
  intros p Ne. unfold query_f. cbn [existsb]. rewrite flt_nan. cbn [orb]. rewrite thk2dep_some by (destruct p; [contradiction|discriminate]). cbn [bind map].
  rewrite search_nan, tops_length, map_length. f_equal. f_equal. rewrite <- (map_length snd p). destruct (@exists_last _ p Ne) as (q & r & ->).
  rewrite last_last, map_app, app_length. cbn [map length]. rewrite Nat.add_1_r. cbn [Nat.pred]. apply nth_middle.
Qed.

(** The layer is the one that holds the depth exactly, unless the depth is within the rounding
    of the sums of an interface. *)
Definition exact_layer (thk : list f64) (z : R) (i : nat) : Prop :=
  (i < length thk)%nat /\ total (firstn i thk) <= z /\ ((S i < length thk)%nat -> z < total (firstn (S i) thk)).
Definition clear_of (thk : list f64) (z : R) : Prop :=
  forall k, (0 < k < length thk)%nat -> ((1 + ueps) ^ k - 1) * total (firstn k thk) < Rabs (z - total (firstn k thk)).
Theorem C107_exact_layer : forall p dep z i, Forall thickness (map fst p) -> thk2dep_f (map fst p) false = Ok dep -> Forall (fun d => fin d = true) dep ->
  fin z = true -> clear_of (map fst p) (val z) -> exact_layer (map fst p) (val z) i -> query_f p [z] = Ok [snd (nth i p (f0, f0))].
Proof.
  intros p dep z i H D Fd Fz C (L & A & B). pose proof (C103_depth_error (map fst p) dep) as Er.
  assert (HT : Forall (fun t => fle f0 t = true) (map fst p)) by (eapply Forall_impl; [|exact H]; apply thickness_ge0).
  destruct (C103_depths_ordered _ _ HT D) as (Len & Z0 & Pd & Sd). rewrite Forall_forall in Fd.
  assert (F : forall k, (k < length dep)%nat -> fin (nth k dep f0) = true) by (intros k Hk; apply Fd, nth_In, Hk).
  assert (Vz : 0 <= val z) by (pose proof (total_firstn i _ H); lra). assert (V : fle f0 z = true) by (apply fle_val; [reflexivity|exact Fz|rewrite f0_val; exact Vz]).
  assert (Ho : holds dep z i).
  { split; [rewrite Len; exact L|]. split.
    - apply fle_val; [apply F; lia|exact Fz|]. destruct i as [|i]; [rewrite Z0, f0_val; exact Vz|].
      specialize (Er (S i) H D ltac:(lia) (F (S i) ltac:(lia))). specialize (C (S i) ltac:(lia)). apply Rabs_le_inv in Er. rewrite Rabs_pos_eq in C by lra. lra.
    - intros Q. rewrite Len in Q. specialize (B Q). match goal with |- ?x = false => destruct x eqn:K; [|reflexivity] end. apply fle_val in K; [|apply F; lia|exact Fz].
      specialize (Er (S i) H D ltac:(lia) (F (S i) ltac:(lia))). specialize (C (S i) ltac:(lia)). apply Rabs_le_inv in Er. rewrite Rabs_left in C by lra. lra. }
  pose proof (holds_index dep z i Pd Sd V Ho) as I. unfold query_f. cbn [existsb].
  replace (flt z f0) with false. 2:{ symmetry. destruct (flt z f0) eqn:Q; [|reflexivity]. apply flt_val in Q; [|exact Fz|reflexivity]. rewrite f0_val in Q. lra. }
  cbn [orb]. rewrite D. cbn [bind map]. rewrite I. f_equal. f_equal. change f0 with (snd (f0, f0)) at 1. apply map_nth.
Qed.

(** ** A profile queried with its own layers *)
(** Specification: no layer, except perhaps the last, is thinner than 20 units of roundoff of the depth of its bottom. *)
Definition no_thin_layer (thk : list f64) : Prop :=
  Forall thickness thk /\ (Z.of_nat (length thk) <= 2 ^ 48)%Z /\ total thk <= bpow radix2 1000 /\
  forall k, (S k < length thk)%nat -> bpow radix2 (-1000) <= val (nth k thk f0) /\ 20 * ueps * total (firstn (S k) thk) <= val (nth k thk f0).

Lemma len_pow n : (Z.of_nat n <= 2 ^ 48)%Z -> (1 + ueps) ^ n <= 2.
Proof.
  intros H. assert (B : INR n * ueps <= / 32).
  { rewrite INR_IZR_INZ. replace (/ 32) with (IZR (2 ^ 48) * ueps). { apply Rmult_le_compat_r; [apply Rlt_le, ueps_pos|apply IZR_le, H]. }
    unfold ueps. replace (2 ^ 53) with (IZR (2 ^ 48) * 32) by (simpl; lra). field. simpl. lra. }
  pose proof (pow_small n ltac:(lra)). lra.
Qed.
Lemma thin_fin thk : no_thin_layer thk -> Forall (fun d => fin d = true) (tops f0 thk).
Proof.
  intros (H & L & T & _). destruct thk as [|t r]; [constructor|]. apply (C103_no_overflow (t :: r) _ H eq_refl). pose proof (len_pow _ L) as P.
  pose proof (total_nonneg _ H) as N. apply Rle_lt_trans with (2 * bpow radix2 1000).
  - apply Rmult_le_compat; [apply Rle_trans with 1; [lra|apply E_ge1]|exact N|exact P|exact T].
  - change 2 with (bpow radix2 1). rewrite <- bpow_plus. apply bpow_lt. lia.
Qed.
Lemma tops_succ acc thk k : (S k < length thk)%nat -> nth (S k) (tops acc thk) f0 = fadd (nth k (tops acc thk) f0) (nth k thk f0).
Proof.
  revert acc k. induction thk as [|t r IH]; intros acc k L; [cbn in L; lia|]. destruct k as [|k].
  - destruct r; [cbn in L; lia|reflexivity].
  - cbn [tops nth]. apply IH. cbn in L. lia.
Qed.
Lemma mids_length acc thk : thk <> [] -> length (mids acc thk) = if feq (last thk f0) f0 then Nat.pred (length thk) else length thk.
Proof.
  revert acc. induction thk as [|t r IH]; intros acc Ne; [contradiction|]. destruct r as [|t' r].
  - cbn [mids last length]. destruct (feq t f0); reflexivity.
  - change (mids acc (t :: t' :: r)) with (fadd acc (fdiv t f2) :: mids (fadd acc t) (t' :: r)). change (last (t :: t' :: r) f0) with (last (t' :: r) f0). cbn [length]. rewrite IH by discriminate. destruct (feq _ f0); reflexivity.
Qed.
Lemma mids_nth acc thk k : (k < length (mids acc thk))%nat -> nth k (mids acc thk) f0 = fadd (nth k (tops acc thk) f0) (fdiv (nth k thk f0) f2).
Proof.
  revert acc k. induction thk as [|t r IH]; intros acc k L; [cbn in L; lia|]. destruct r as [|t' r].
  - cbn [mids] in *. destruct (feq t f0); [cbn in L; lia|]. cbn in L. replace k with 0%nat by lia. reflexivity.
  - change (mids acc (t :: t' :: r)) with (fadd acc (fdiv t f2) :: mids (fadd acc t) (t' :: r)) in *. destruct k as [|k]; [reflexivity|].
    cbn [nth tops]. apply IH. cbn [length] in L. lia.
Qed.
(** The two middle quantities of a layer that is not thin. *)
Lemma thin_step D acc h : thickness acc -> thickness h -> val acc <= 2 * D -> 0 <= D -> bpow radix2 (-1000) <= val h -> 20 * ueps * (D + val h) <= val h ->
  fin (fadd acc h) = true -> val acc < val (fadd acc h) /\ val (fadd acc (fdiv h f2)) < val (fadd acc h).
Proof.
  intros Ta Hh B D0 Lo Thin F. pose proof (mid_step acc h Ta Hh F) as [Fm [M1 _]]. pose proof ueps_pos as U. pose proof ueps_small as U4. pose proof (bpow_gt_0 radix2 (-1000)) as P0.
  destruct Ta as [Fa Va]. pose proof Hh as [Fh Vh]. destruct (half_ok h Hh) as [[Fq Vq] _].
  assert (U20 : 20 * ueps <= 1). { apply Rmult_le_reg_r with (val h); [lra|]. assert (0 <= ueps * D) by (apply Rmult_le_pos; lra). lra. }
  assert (Hq : val (fdiv h f2) <= val h / 2 * (1 + ueps)).
  { destruct f2_ok as [_ V2]. rewrite fdiv_val by (lra || exact Fq). rewrite V2. destruct (rnd_rel (val h / 2)) as (e & He & ->).
    - rewrite Rabs_pos_eq by lra. apply Rle_trans with (bpow radix2 (-1001)); [apply bpow_le; lia|]. replace (-1001)%Z with (-1000 + -1)%Z by reflexivity. rewrite bpow_plus. change (bpow radix2 (-1)) with (/ 2). lra.
    - apply Rabs_le_inv in He. apply Rmult_le_compat_l; lra. }
  assert (LowS : (val acc + val h) * (1 - ueps) <= val (fadd acc h)).
  { rewrite fadd_val by assumption. destruct (rnd_plus' (val acc) (val h) (val_dbl _) (val_dbl _)) as (e & He & ->). apply Rabs_le_inv in He. apply Rmult_le_compat_l; lra. }
  assert (UpM : val (fadd acc (fdiv h f2)) <= (val acc + val (fdiv h f2)) * (1 + ueps)).
  { rewrite fadd_val by assumption. destruct (rnd_plus' (val acc) (val (fdiv h f2)) (val_dbl _) (val_dbl _)) as (e & He & ->). apply Rabs_le_inv in He. apply Rmult_le_compat_l; lra. }
  assert (K : val (fadd acc (fdiv h f2)) < val (fadd acc h)); [|split; [lra|exact K]].
  assert (A1 : ueps * val acc <= 2 * (ueps * D)) by nra. assert (A2 : 0 <= ueps * val h) by (apply Rmult_le_pos; lra).
  assert (A3 : val (fdiv h f2) * ueps <= val h * ueps) by (apply Rmult_le_compat_r; [lra|]; apply (half_ok h Hh)).
  assert (A4 : 20 * (ueps * D) + 20 * (ueps * val h) <= val h) by lra. lra.
Qed.

Lemma last_nth_f (l : list f64) : last l f0 = nth (length l - 1) l f0.
Proof. destruct l as [|x l]; [reflexivity|]. destruct (@exists_last _ (x :: l) ltac:(discriminate)) as (q & y & ->). rewrite last_last, app_length. cbn [length]. replace (length q + 1 - 1)%nat with (length q) by lia. symmetry. apply nth_middle. Qed.

Section Own.
Variable (p : list frow).
Hypothesis (Hp : no_thin_layer (map fst p)) (Ne : p <> []).
Let thk := map fst p.
Let dep := tops f0 thk.
Lemma own_len : length dep = length p. Proof using. unfold dep, thk. rewrite tops_length. apply map_length. Qed.
Lemma own_dep : thk2dep_f thk false = Ok dep. Proof using Ne. clear Hp. unfold thk, dep. apply thk2dep_some. destruct p; [contradiction|discriminate]. Qed.
Lemma own_order : Forall (fun d => fle f0 d = true) dep /\ (forall i j, (i <= j < length dep)%nat -> fle (nth i dep f0) (nth j dep f0) = true).
Proof using Hp Ne.
  assert (HT : Forall (fun t => fle f0 t = true) thk) by (eapply Forall_impl; [|apply Hp]; apply thickness_ge0).
  destruct (C103_depths_ordered _ _ HT own_dep) as (_ & _ & P & S). auto.
Qed.
Lemma own_thick k : (k < length p)%nat -> thickness (nth k dep f0) /\ thickness (nth k thk f0) /\ val (nth k dep f0) <= 2 * total (firstn k thk).
Proof using Hp Ne.
  intros L. pose proof (thin_fin _ Hp) as F. fold thk dep in F. rewrite Forall_forall in F. pose proof (F (nth k dep f0) ltac:(apply nth_In; rewrite own_len; exact L)) as Fk.
  destruct own_order as [P _]. rewrite Forall_forall in P. pose proof (P (nth k dep f0) ltac:(apply nth_In; rewrite own_len; exact L)) as Pk. apply fle_val in Pk; [|reflexivity|exact Fk]. rewrite f0_val in Pk.
  destruct Hp as (T & Ln & _). fold thk in T, Ln. split; [split; assumption|]. split.
  - rewrite Forall_forall in T. apply T, nth_In. unfold thk. rewrite map_length. exact L.
  - pose proof (C103_depth_error thk dep k T own_dep ltac:(rewrite own_len; exact L) Fk) as E. apply Rabs_le_inv in E.
    assert (Lk : (Z.of_nat k <= 2 ^ 48)%Z) by (assert (EL : length thk = length p) by apply map_length; lia). pose proof (len_pow k Lk) as Pw. pose proof (total_firstn k thk T) as Q. nra.
Qed.
Lemma own_inside k z : (k < length p)%nat -> fin z = true -> val (nth k dep f0) <= val z -> ((S k < length p)%nat -> val z < val (nth (S k) dep f0)) ->
  Nat.pred (search_right dep z) = k /\ flt z f0 = false.
Proof using Hp Ne.
  intros L F A B. destruct own_order as [P S0]. destruct (own_thick k L) as ([Fk Vk] & _ & _).
  assert (V : fle f0 z = true) by (apply fle_val; [reflexivity|exact F|rewrite f0_val; lra]). split.
  - apply holds_index; [exact P|exact S0|exact V|]. split; [rewrite own_len; exact L|]. split; [apply fle_val; assumption|]. rewrite own_len. intros Q. specialize (B Q).
    match goal with |- ?x = false => destruct x eqn:K; [|reflexivity] end. destruct (own_thick (S k) Q) as ([Fs _] & _ & _). apply fle_val in K; [lra|exact Fs|exact F].
  - destruct (flt z f0) eqn:Q; [|reflexivity]. apply flt_val in Q; [|exact F|reflexivity]. rewrite f0_val in Q. lra.
Qed.
Lemma own_step k : (S k < length p)%nat -> val (nth k dep f0) < val (nth (S k) dep f0) /\ val (fadd (nth k dep f0) (fdiv (nth k thk f0) f2)) < val (nth (S k) dep f0).
Proof using Hp Ne.
  intros L. destruct (own_thick k ltac:(lia)) as (Td & Th & B). destruct (own_thick (S k) L) as ([Fs _] & _ & _).
  assert (Lt : (S k < length thk)%nat) by (unfold thk; rewrite map_length; exact L). destruct Hp as (T & _ & _ & Thin). fold thk in T, Thin. destruct (Thin k Lt) as [Lo Th'].
  rewrite (total_firstn_S thk k) in Th' by lia. unfold dep in *. rewrite tops_succ in * by exact Lt. pose proof (total_firstn k thk T) as Q.
  apply (thin_step (total (firstn k thk))); try assumption. apply Q.
Qed.
Lemma own_query zs vs : length zs = length vs -> (length zs <= length p)%nat -> (forall k, (k < length zs)%nat -> Nat.pred (search_right dep (nth k zs f0)) = k /\ flt (nth k zs f0) f0 = false) ->
  vs = firstn (length zs) (map snd p) -> query_f p zs = Ok vs.
Proof using Ne.
  clear Hp. intros L Lp H ->. unfold query_f. replace (existsb (fun z => flt z f0) zs) with false.
  - fold thk. rewrite own_dep. cbn [bind]. f_equal. apply nth_ext with f0 f0; [rewrite map_length; exact L|]. intros k Hk. rewrite map_length in Hk.
    rewrite (nth_indep _ f0 ((fun z => nth (Nat.pred (search_right dep z)) (map snd p) f0) f0)) by (rewrite map_length; exact Hk).
    rewrite (map_nth (fun z => nth (Nat.pred (search_right dep z)) (map snd p) f0)). destruct (H k Hk) as [-> _].
    rewrite <- (firstn_skipn (length zs) (map snd p)) at 1. rewrite app_nth1; [reflexivity|]. rewrite firstn_length, map_length. lia.
  - symmetry. destruct (existsb _ zs) eqn:Q; [|reflexivity]. apply existsb_exists in Q as (z & Hz & Lz). destruct (In_nth zs z f0 Hz) as (k & Hk & E). destruct (H k Hk) as [_ X]. rewrite E in X. congruence.
Qed.
End Own.

(** Queried with its own thicknesses at the tops, a profile without thin layers returns its own velocities;
    at the middles as well, except for a half space of thickness 0, which has no middle. *)
Theorem C107_own_tops : forall p, p <> [] -> no_thin_layer (map fst p) -> query_thk_f p (map fst p) false = Ok (map snd p).
Proof.
  intros p Ne Hp. unfold query_thk_f. rewrite (own_dep p Ne). cbn [bind]. pose proof (own_len p) as Len.
  apply (own_query p Ne); [rewrite Len; symmetry; apply map_length|lia| |rewrite Len, firstn_all2; [reflexivity|rewrite map_length; lia]].
  intros k Hk. rewrite Len in Hk. apply (own_inside p Hp Ne k _ Hk); [apply (own_thick p Hp Ne k Hk)|lra|]. intros Q. apply (own_step p Hp Ne k Q).
Qed.
Theorem C107_own_middles : forall p, p <> [] -> no_thin_layer (map fst p) -> fin (fadd (last (tops f0 (map fst p)) f0) (last (map fst p) f0)) = true ->
  query_thk_f p (map fst p) true = Ok (if feq (last (map fst p) f0) f0 then removelast (map snd p) else map snd p).
Proof.
  intros p Ne Hp FL. unfold query_thk_f. assert (NeT : map fst p <> []) by (destruct p; [contradiction|discriminate]).
  replace (thk2dep_f (map fst p) true) with (Ok (mids f0 (map fst p))) by (destruct (map fst p); [contradiction|reflexivity]). cbn [bind].
  pose proof (mids_length f0 _ NeT) as ML. rewrite map_length in ML.
  apply (own_query p Ne).
  - rewrite ML. destruct (feq _ f0); [|rewrite map_length; reflexivity]. assert (E : removelast (map snd p) = firstn (Nat.pred (length (map snd p))) (map snd p)) by apply removelast_firstn_len.
    rewrite E, firstn_length, map_length. lia.
  - rewrite ML. destruct (feq _ f0); lia.
  - intros k Hk. assert (Lk : (k < length p)%nat) by (rewrite ML in Hk; destruct (feq _ f0); lia). rewrite (mids_nth _ _ _ Hk).
    destruct (own_thick p Hp Ne k Lk) as (Td & Th & _).
    assert (Fs : fin (fadd (nth k (tops f0 (map fst p)) f0) (nth k (map fst p) f0)) = true).
    { destruct (Nat.eq_dec (S k) (length p)) as [Q|Q].
      - rewrite (last_nth_f (tops f0 (map fst p))), (last_nth_f (map fst p)), tops_length, map_length in FL. replace (length p - 1)%nat with k in FL by lia. exact FL.
      - rewrite <- tops_succ by (rewrite map_length; lia). apply (own_thick p Hp Ne (S k) ltac:(lia)). }
    destruct (mid_step _ _ Td Th Fs) as [Fm [M1 M2]]. apply (own_inside p Hp Ne k _ Lk Fm M1). intros Q. apply (own_step p Hp Ne k Q).
  - rewrite ML. destruct (feq _ f0); [rewrite removelast_firstn_len, map_length; reflexivity|]. rewrite firstn_all2; [reflexivity|]. rewrite map_length. lia.
Qed.
(** A profile of equal layers, without half space, queried with their thickness and number. *)
Lemma fmul_one x : fin x = true -> val x <> 0 -> fmul x f1 = x.
Proof.
  intros F N. assert (V1 : fin f1 = true /\ val f1 = 1). { destruct (lit_ok 1 0 ltac:(cbn; lia) ltac:(lia)) as [F1 V1]. split; [exact F1|]. unfold f1. rewrite V1. change (bpow radix2 0) with 1. ring. }
  destruct V1 as [F1 V1]. assert (E : rnd (val x * val f1) = val x) by (rewrite V1, Rmult_1_r; apply rnd_id, val_dbl).
  destruct (fmul_fin x f1 F F1) as [Fm Vm]; [rewrite E; apply val_lt_top|]. rewrite E in Vm.
  assert (St : forall y : f64, fin y = true -> val y <> 0 -> is_finite_strict y = true).
  { intros y Fy Ny. destruct y as [s|[|]| |s m e W]; try discriminate Fy; [|reflexivity]. change (val (B754_zero s)) with 0 in Ny. contradiction. }
  apply (B2R_inj 53 1024); [apply St; [exact Fm|rewrite Vm; exact N]|apply St; assumption|exact Vm].
Qed.
Lemma const_thin h n : fin h = true -> bpow radix2 (-1000) <= val h -> (Z.of_nat n <= 2 ^ 48)%Z -> INR n * val h <= bpow radix2 1000 -> no_thin_layer (repeat h n).
Proof.
  intros F Lo Ln T. pose proof (bpow_gt_0 radix2 (-1000)) as P0. pose proof ueps_pos as U. split; [|split; [|split]].
  - apply Forall_forall. intros x Hx. apply repeat_spec in Hx. subst x. split; [exact F|lra].
  - rewrite repeat_length. exact Ln.
  - rewrite total_repeat. exact T.
  - intros k Hk. rewrite repeat_length in Hk. rewrite (nth_indep _ f0 h) by (rewrite repeat_length; lia). rewrite nth_repeat. split; [exact Lo|].
    assert (E : firstn (S k) (repeat h n) = repeat h (S k)). { replace n with (S k + (n - S k))%nat by lia. rewrite repeat_app, firstn_app, repeat_length, Nat.sub_diag, firstn_O, app_nil_r. apply firstn_all2. rewrite repeat_length. lia. }
    rewrite E, total_repeat. assert (B : INR (S k) * ueps <= / 32).
    { rewrite INR_IZR_INZ. replace (/ 32) with (IZR (2 ^ 48) * ueps). { apply Rmult_le_compat_r; [lra|]. apply IZR_le. lia. }
      unfold ueps. replace (2 ^ 53) with (IZR (2 ^ 48) * 32) by (simpl; lra). field. simpl. lra. }
    replace (20 * ueps * (INR (S k) * val h)) with (20 * (INR (S k) * ueps) * val h) by ring. nra.
Qed.
Lemma last_repeat (h d : f64) n : (0 < n)%nat -> last (repeat h n) d = h.
Proof. intros H. destruct n as [|n]; [lia|]. cbn [repeat]. rewrite repeat_cons. apply last_last. Qed.
Theorem C107_constant : forall h vs m, fin h = true -> bpow radix2 (-1000) <= val h -> vs <> [] -> (Z.of_nat (length vs) <= 2 ^ 48)%Z -> INR (length vs) * val h <= bpow radix2 1000 ->
  query_const_f (combine (repeat h (length vs)) vs) h (Z.of_nat (length vs)) m = Ok vs.
Proof.
  intros h vs m F Lo Ne Ln T. pose proof (bpow_gt_0 radix2 (-1000)) as P0. set (n := length vs) in *. set (p := combine (repeat h n) vs).
  assert (E1 : map fst p = repeat h n).
  { unfold p. clear. subst n. induction vs as [|v vs IH]; [reflexivity|]. cbn. rewrite IH. reflexivity. }
  assert (E2 : map snd p = vs). { unfold p. clear. subst n. induction vs as [|v vs IH]; [reflexivity|]. cbn. rewrite IH. reflexivity. }
  assert (N0 : (0 < n)%nat) by (unfold n; destruct vs; [contradiction|cbn; lia]).
  assert (Np : p <> []) by (intros Q; rewrite Q in E2; cbn in E2; congruence).
  pose proof (const_thin h n F Lo Ln T) as Th. unfold query_const_f. destruct (Z.leb_spec (Z.of_nat n) 0); [lia|]. rewrite Nat2Z.id, fmul_one by (assumption || lra). rewrite <- E1 in Th |- *.
  destruct m; [|rewrite C107_own_tops by assumption; rewrite E2; reflexivity].
  assert (Hz : feq (last (map fst p) f0) f0 = false).
  { rewrite E1, last_repeat by exact N0. destruct (feq h f0) eqn:Q; [|reflexivity]. apply feq_val in Q; [|exact F|reflexivity]. rewrite f0_val in Q. lra. }
  rewrite C107_own_middles; [rewrite Hz, E2; reflexivity|exact Np|exact Th|].
  assert (Fs : Forall (fun d => fin d = true) (tops f0 (repeat h (S n)))).
  { apply (C103_no_overflow (repeat h (S n)) _); [apply Forall_forall; intros x Hx; apply repeat_spec in Hx; subst x; split; [exact F|lra]|reflexivity|].
    rewrite repeat_length, total_repeat, S_INR. cbn [pow]. pose proof (len_pow n Ln) as Pw. pose proof (E_ge1 n) as E1'. pose proof ueps_small. pose proof ueps_pos. assert (1 <= INR n) by (apply (le_INR 1); lia).
    assert (A1 : (1 + ueps) * (1 + ueps) ^ n <= 4) by nra. assert (A0 : 0 <= (1 + ueps) * (1 + ueps) ^ n) by nra.
    apply Rle_lt_trans with (bpow radix2 3 * bpow radix2 1000); [|rewrite <- bpow_plus; apply bpow_lt; lia]. change (bpow radix2 3) with 8.
    apply Rle_trans with (4 * (2 * (INR n * val h))); [|lra]. apply Rmult_le_compat; [exact A0|apply Rmult_le_pos; lra|exact A1|nra]. }
  rewrite Forall_forall in Fs. specialize (Fs (nth n (tops f0 (repeat h (S n))) f0) ltac:(apply nth_In; rewrite tops_length, repeat_length; lia)).
  rewrite E1, !last_nth_f, tops_length, repeat_length. destruct n as [|n']; [lia|]. rewrite tops_succ in Fs by (rewrite repeat_length; lia).
  replace (S n' - 1)%nat with n' by lia.
  assert (Pre : forall k acc l x, (k < length l)%nat -> nth k (tops acc (l ++ [x])) f0 = nth k (tops acc l) f0).
  { clear. intros k acc l. revert k acc. induction l as [|t l IH]; intros k acc x L; [cbn in L; lia|]. destruct k as [|k]; [reflexivity|]. cbn [app tops nth]. apply IH. cbn in L. lia. }
  assert (R : repeat h (S (S n')) = repeat h (S n') ++ [h]) by (change [h] with (repeat h 1); rewrite <- repeat_app; f_equal; lia).
  rewrite R in Fs. rewrite Pre in Fs by (rewrite repeat_length; lia). rewrite app_nth1 in Fs by (rewrite repeat_length; lia). exact Fs.
Qed.
(** A layer that does not change the depth is never found ... *)
Theorem C107_lost : forall dep z k, (forall i, (i < length dep)%nat -> fin (nth i dep f0) = true) -> (S k < length dep)%nat -> val (nth (S k) dep f0) = val (nth k dep f0) -> fnan z = false -> ~ holds dep z k.
Proof.
  intros dep z k F L E N (_ & A & B). specialize (B L). pose proof (F (S k) L) as F1. pose proof (F k ltac:(lia)) as F2.
  destruct (fin z) eqn:Fz.
  - apply fle_val in A; [|exact F2|exact Fz]. rewrite <- E in A. apply fle_val in A; [congruence|exact F1|exact Fz].
  - destruct z as [s|[|]| |s m e W]; try discriminate.
    + destruct (nth k dep f0) as [s|[|]| |s m e W]; discriminate.
    + rewrite fle_inf in B; [discriminate|]. destruct (nth (S k) dep f0) as [s|[|]| |s m e W]; reflexivity || discriminate.
Qed.
(** ... and a layer thinner than half a unit of roundoff of the depth of its top does not change the depth. *)
Theorem C107_thin_layer : forall thk dep k, Forall thickness thk -> thk2dep_f thk false = Ok dep -> Forall (fun d => fin d = true) dep -> (S k < length thk)%nat ->
  val (nth k thk f0) < ueps / 2 * val (nth k dep f0) -> val (nth (S k) dep f0) = val (nth k dep f0) /\ forall z, fnan z = false -> ~ holds dep z k.
Proof.
  intros thk dep k H E F L Thin. pose proof E as E'. apply thk2dep_tops in E' as [_ Q]. rewrite Forall_forall in F, H.
  assert (LD : length dep = length thk) by (rewrite Q; apply tops_length).
  assert (Fk : forall i, (i < length dep)%nat -> fin (nth i dep f0) = true) by (intros i Hi; apply F, nth_In, Hi).
  assert (K : val (nth (S k) dep f0) = val (nth k dep f0)); [|split; [exact K|]; intros z Nz; apply (C107_lost dep z k Fk); [lia|exact K|exact Nz]].
  pose proof (Fk k ltac:(lia)) as F0. pose proof (Fk (S k) ltac:(lia)) as F1. destruct (H (nth k thk f0) ltac:(apply nth_In; lia)) as [Fh Vh].
  assert (S1 : nth (S k) dep f0 = fadd (nth k dep f0) (nth k thk f0)) by (rewrite Q; apply tops_succ, L).
  rewrite S1 in F1 |- *. rewrite fadd_val by assumption. set (d := val (nth k dep f0)) in *. set (h := val (nth k thk f0)) in *. pose proof ueps_pos as U.
  assert (D0 : 0 <= d) by nra. assert (Dd : dbl d) by apply val_dbl. apply Rle_antisym.
  - unfold rnd. apply round_N_le_midp; [apply (FLT_exp_valid (-1074) 53)|exact Dd|]. rewrite succ_eq_pos by exact D0.
    pose proof (ulp_FLT_gt radix2 (-1074) 53 d) as G. rewrite Rabs_pos_eq in G by exact D0. replace (bpow radix2 (- (53))) with ueps in G by (unfold ueps; change (bpow radix2 (- (53))) with (/ IZR (2 ^ 53)); f_equal; simpl; lra).
    fold fexp64 in G. assert (d * ueps < ulp radix2 fexp64 d) by exact G. lra.
  - rewrite <- (rnd_id d Dd) at 1. apply rnd_mono. lra.
Qed.
Definition thin_profile : list frow := [(lit 1 0, lit 100 0); (lit 1 (-55), lit 200 0); (lit 1 0, lit 300 0); (f0, lit 400 0)].
Theorem C107_own_refuted : exists vs vs', query_thk_f thin_profile (map fst thin_profile) false = Ok vs /\ query_thk_f thin_profile (map fst thin_profile) true = Ok vs' /\
  flt f0 (fst (nth 1 thin_profile (f0, f0))) = true /\ feq (nth 1 vs f0) (lit 300 0) = true /\ feq (nth 1 vs' f0) (lit 300 0) = true /\ snd (nth 1 thin_profile (f0, f0)) = lit 200 0.
Proof.
  eexists. eexists. split; [reflexivity|]. split; [reflexivity|]. split; [vm_compute; reflexivity|]. split; [vm_compute; reflexivity|]. split; [vm_compute; reflexivity|reflexivity].
Qed.

(** Layers of 5/8 m and 5/2 m over a half space. *)
Definition some_profile : list frow := [(lit 5 (-3), lit 150 0); (lit 20 (-3), lit 300 0); (f0, lit 800 0)].
Lemma some_profile_ok : no_thin_layer (map fst some_profile).
Proof.
  change (map fst some_profile) with some_thk. destruct C103_instance as (_ & T & _). pose proof some_total as S. unfold no_thin_layer. split; [exact T|]. split; [cbn; lia|].
  split. { rewrite S. apply Rle_trans with (bpow radix2 2); [change (bpow radix2 2) with 4; lra|apply bpow_le; lia]. }
  assert (V0 : val (lit 5 (-3)) = 5 / 8) by (rewrite (proj2 (lit_ok 5 (-3) ltac:(cbn; lia) ltac:(lia))); change (bpow radix2 (-3)) with (/ 8); lra).
  assert (V1 : val (lit 20 (-3)) = 5 / 2) by (rewrite (proj2 (lit_ok 20 (-3) ltac:(cbn; lia) ltac:(lia))); change (bpow radix2 (-3)) with (/ 8); lra).
  assert (U : ueps <= / 1000) by (unfold ueps; apply Rinv_le; [lra|]; simpl; lra). pose proof ueps_pos as U0.
  assert (Lo : bpow radix2 (-1000) <= / 2) by (change (/ 2) with (bpow radix2 (-1)); apply bpow_le; lia).
  intros [|[|k]] L; [| |cbn in L; lia]; unfold some_thk; cbn [nth firstn total]; rewrite ?V0, ?V1; split; lra.
Qed.
Example C107_instance : no_thin_layer (map fst some_profile) /\ query_thk_f some_profile (map fst some_profile) false = Ok (map snd some_profile) /\
  clear_of (map fst some_profile) (val (lit 2 0)) /\ exact_layer (map fst some_profile) (val (lit 2 0)) 1 /\ query_f some_profile [lit 2 0] = Ok [lit 300 0] /\
  query_f some_profile [lit (-1) 0] = Err ValueError /\ query_f [] [f0] = Err IndexError.
Proof.
  pose proof some_profile_ok as N. split; [exact N|]. split; [apply C107_own_tops; [discriminate|exact N]|].
  assert (V0 : val (lit 5 (-3)) = 5 / 8) by (rewrite (proj2 (lit_ok 5 (-3) ltac:(cbn; lia) ltac:(lia))); change (bpow radix2 (-3)) with (/ 8); lra).
  assert (V1 : val (lit 20 (-3)) = 5 / 2) by (rewrite (proj2 (lit_ok 20 (-3) ltac:(cbn; lia) ltac:(lia))); change (bpow radix2 (-3)) with (/ 8); lra).
  destruct (lit_ok 2 0 ltac:(cbn; lia) ltac:(lia)) as [F2 V2]. change (bpow radix2 0) with 1 in V2. rewrite Rmult_1_r in V2.
  assert (U : ueps <= / 1000) by (unfold ueps; apply Rinv_le; [lra|]; simpl; lra). pose proof ueps_pos as U0.
  assert (C : clear_of (map fst some_profile) (val (lit 2 0))).
  { intros k Hk. rewrite V2. destruct k as [|[|[|k]]]; [lia| | |cbn in Hk; lia]; unfold some_profile; cbn [map fst firstn total pow]; rewrite V0, ?V1.
    - rewrite Rabs_pos_eq by lra. lra.
    - rewrite Rabs_left by lra. assert (ueps * ueps <= / 1000) by nra. lra. }
  assert (X : exact_layer (map fst some_profile) (val (lit 2 0)) 1).
  { rewrite V2. split; [cbn; lia|]. unfold some_profile. cbn [map fst firstn total]. rewrite V0, V1. split; [lra|]. intros _. lra. }
  split; [exact C|]. split; [exact X|]. split.
  - change (lit 300 0) with (snd (nth 1 some_profile (f0, f0))). apply (C107_exact_layer some_profile (tops f0 (map fst some_profile))); [apply N|reflexivity|apply thin_fin, N|exact F2|exact C|exact X].
  - split; [|reflexivity]. unfold query_f. replace (existsb (fun z => flt z f0) [lit (-1) 0]) with true by (vm_compute; reflexivity). reflexivity.
Qed.
