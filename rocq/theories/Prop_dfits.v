(** C100: fitting damping curves with the optimisers. *)
From Coq Require Import Reals List Bool ZArith String Lia Lra.
From Verif Require Import Base M_generic M_profile M_vs_profile M_motion M_interp P_interp M_soil P_soil Prop_soil M_params P_params Prop_params M_curves P_curves Prop_curves P_batch M_dampcal M_fits.
Import ListNotations.
Open Scope R_scope.
Open Scope string_scope.
Open Scope list_scope.

(** ** Specification *)
(** Stress of the two laws at a positive strain. *)
Definition mkz_stress (gr s b G g : R) : R := G * g / (1 + b * Rpower (g / gr) s).
Definition fkz_stress (mu d G T g : R) : R := mu * G * Rpower g d / (1 + G / T * mu * Rpower g d).
Definition hh_stress (gt a gr b s G mu T d g : R) : R :=
  transition a gt g * mkz_stress gr s b G g + (1 - transition a gt g) * fkz_stress mu d G T g.
(** The damping of a stress-strain curve, and the mean distance of two lists. *)
Definition masing_curve (es ts : list R) : list R := map (fun k => Rmax (masing es ts k) 0) (seq 0 (List.length es)).
Definition mean_abs (xs ys : list R) : R :=
  rsum (map (fun p => Rabs (fst p - snd p)) (combine xs ys)) / INR (List.length xs).
Definition H4_error (data : list (R * R)) (gr s b : R) : R :=
  mean_abs (map snd data) (masing_curve (map fst data) (map (mkz_stress gr s b 1) (map fst data))).
Definition HH_error (data : list (R * R)) (gt a gr b s G mu T d : R) : R :=
  mean_abs (map snd data) (masing_curve (map fst data) (map (hh_stress gt a gr b s G mu T d) (map fst data))).
Definition usable (data : list (R * R)) : Prop := data <> [] /\ Forall (fun p => 0 < fst p) data.

(** ** Lemmas *)
Lemma fins_map ts : fins (map Fin ts) = Some ts.
Proof. induction ts as [|t ts IH]; [reflexivity|]. cbn [map fins]. rewrite IH. reflexivity. Qed.
Lemma masing_curve_length es ts : List.length (masing_curve es ts) = List.length es.
Proof. unfold masing_curve. rewrite map_length, seq_length. reflexivity. Qed.
Lemma masing_curve_nth es ts k : (k < List.length es)%nat -> nth k (masing_curve es ts) 0 = Rmax (masing es ts k) 0.
Proof.
  intros Hk. unfold masing_curve. set (f := fun k => _). rewrite (nth_indep _ 0 (f 0%nat)) by (rewrite map_length, seq_length; exact Hk).
  rewrite map_nth, seq_nth by exact Hk. reflexivity.
Qed.

Lemma misfit_core data ts G : usable data -> List.length ts = List.length data -> Forall (fun t => 0 < t) ts -> G <> 0 ->
  misfit_of data (map Fin ts) G = Ok (Fin (mean_abs (map snd data) (masing_curve (map fst data) ts))).
Proof.
  intros [Hne Hp] L Ht HG. unfold misfit_of. rewrite fins_map.
  assert (N1 : nonzero (map fst data)) by (unfold nonzero; apply Forall_map; eapply Forall_impl; [|exact Hp]; cbn; intros; lra).
  assert (N2 : nonzero ts) by (unfold nonzero; eapply Forall_impl; [|exact Ht]; cbn; intros; lra).
  destruct (C45_damping_curve (map fst data) ts G ltac:(rewrite map_length; lia) ltac:(destruct data; [congruence|discriminate]) HG N1 N2) as (ds & E & Ld & Hd & _).
  assert (Eds : ds = masing_curve (map fst data) ts).
  { apply (nth_ext _ _ 0 0); [rewrite masing_curve_length; exact Ld|]. intros k Hk. rewrite Ld in Hk. rewrite Hd, masing_curve_nth by exact Hk. reflexivity. }
  rewrite E. cbn [bind]. unfold mean_absolute_error, np_sub. rewrite Ld, !map_length, Nat.eqb_refl. cbn [bind].
  rewrite <- Eds. unfold mean_abs. rewrite map_map. rewrite map_length. f_equal.
  destruct data as [|p data]; [congruence|]. destruct ds as [|x ds]; [discriminate|]. cbn [map combine]. f_equal. f_equal. cbn [List.length]. rewrite map_length, combine_length, map_length.
  cbn [List.length map] in Ld. rewrite map_length in Ld. f_equal. f_equal. lia.
Qed.

Lemma mkz_stress_val gr s b G g : 0 < gr -> 0 <= b -> 0 < s -> 0 < g -> tau_MKZ gr b s G g = Fin (mkz_stress gr s b G g).
Proof.
  intros. rewrite tau_MKZ_val by auto. unfold mkz_val, mkz_stress. rewrite Rabs_pos_eq by lra. rewrite pw_pos; [reflexivity|].
  apply Rgt_not_eq, Rdiv_lt_0_compat; auto.
Qed.
Lemma mkz_stress_pos gr s b G g : 0 <= b -> 0 < G -> 0 < g -> 0 < mkz_stress gr s b G g.
Proof. intros. unfold mkz_stress. assert (0 < Rpower (g / gr) s) by apply exp_pos. apply Rdiv_lt_0_compat; nra. Qed.
Lemma fkz_stress_val mu d G T g : 0 < G -> 0 < mu -> 0 < T -> 0 < d -> 0 < g -> tau_FKZ G mu d T g = Fin (fkz_stress mu d G T g).
Proof. intros. rewrite tau_FKZ_val by lra. unfold fkz_val, fkz_stress. rewrite pw_pos by lra. reflexivity. Qed.
Lemma fkz_stress_pos mu d G T g : 0 < G -> 0 < mu -> 0 < T -> 0 < fkz_stress mu d G T g.
Proof.
  intros. unfold fkz_stress. assert (0 < Rpower g d) by apply exp_pos. assert (0 < G / T) by (apply Rdiv_lt_0_compat; auto).
  assert (0 < mu * G) by (apply Rmult_lt_0_compat; auto). assert (0 < G / T * mu) by (apply Rmult_lt_0_compat; auto).
  apply Rdiv_lt_0_compat; [apply Rmult_lt_0_compat; auto|]. assert (0 < G / T * mu * Rpower g d) by (apply Rmult_lt_0_compat; auto). lra.
Qed.
Lemma hh_stress_val gt a gr b s G mu T d g : 0 < gr -> 0 <= b -> 0 < s -> 0 < G -> 0 < mu -> 0 < T -> 0 < d -> 0 < g ->
  tau_HH_at gt a gr b s G mu T d g = Fin (hh_stress gt a gr b s G mu T d g).
Proof. intros. unfold tau_HH_at. rewrite mkz_stress_val, fkz_stress_val by auto. reflexivity. Qed.
Lemma hh_stress_pos gt a gr b s G mu T d g : 0 <= b -> 0 < G -> 0 < mu -> 0 < T -> 0 < g -> 0 < hh_stress gt a gr b s G mu T d g.
Proof.
  intros. unfold hh_stress. pose proof (transition_bounds a gt g). pose proof (mkz_stress_pos gr s b G g ltac:(auto) ltac:(auto) ltac:(auto)).
  pose proof (fkz_stress_pos mu d G T g ltac:(auto) ltac:(auto) ltac:(auto)). nra.
Qed.

Lemma map_fin_ext (f : R -> num) (g : R -> R) l : Forall (fun x => 0 < x) l -> (forall x, 0 < x -> f x = Fin (g x)) -> map f l = map Fin (map g l).
Proof. intros H E. induction H as [|x l Hx H IH]; [reflexivity|]. cbn [map]. rewrite IH, E by exact Hx. reflexivity. Qed.
Lemma usable_strains data : usable data -> Forall (fun x => 0 < x) (map fst data).
Proof. intros [_ H]. apply Forall_map. exact H. Qed.

(** ** The misfits *)
(** What the optimisers minimise, for candidates given as powers of ten: the mean
    absolute difference between the data and the (Masing) damping of the law. *)
Theorem C100_H4_misfit : forall data x y z, usable data ->
  mkz_misfit data [x; y; z] = Ok (Fin (H4_error data (Rpower 10 x) (Rpower 10 y) (Rpower 10 z))).
Proof.
  intros data x y z H. unfold mkz_misfit, H4_error. assert (P : forall t, 0 < Rpower 10 t) by (intros; apply exp_pos).
  rewrite (map_fin_ext _ (mkz_stress (Rpower 10 x) (Rpower 10 y) (Rpower 10 z) 1) _ (usable_strains data H)).
  2:{ intros g Hg. apply mkz_stress_val; auto. apply Rlt_le, P. }
  apply misfit_core; [exact H|rewrite !map_length; reflexivity| |lra].
  apply Forall_map. eapply Forall_impl; [|exact (usable_strains data H)]. cbn. intros g Hg. apply mkz_stress_pos; [apply Rlt_le, P|lra|exact Hg].
Qed.
Theorem C100_HH_misfit : forall data gt a gr b s G mu T d, usable data ->
  hh_misfit data [gt; a; gr; b; s; G; mu; T; d] =
  Ok (Fin (HH_error data (Rpower 10 gt) (Rpower 10 a) (Rpower 10 gr) (Rpower 10 b) (Rpower 10 s) (Rpower 10 G) (Rpower 10 mu) (Rpower 10 T) (Rpower 10 d))).
Proof.
  intros data gt a gr b s G mu T d H. unfold hh_misfit, HH_error. assert (P : forall t, 0 < Rpower 10 t) by (intros; apply exp_pos).
  unfold tau_HH, transition_function. rewrite (proj2 (Rltb_true 0 (Rpower 10 gt))) by apply P. cbn [bind].
  rewrite (map_fin_ext _ (hh_stress (Rpower 10 gt) (Rpower 10 a) (Rpower 10 gr) (Rpower 10 b) (Rpower 10 s) (Rpower 10 G) (Rpower 10 mu) (Rpower 10 T) (Rpower 10 d)) _ (usable_strains data H)).
  2:{ intros g Hg. apply hh_stress_val; auto. apply Rlt_le, P. }
  apply misfit_core; [exact H|rewrite !map_length; reflexivity| |apply Rgt_not_eq, P].
  apply Forall_map. eapply Forall_impl; [|exact (usable_strains data H)]. cbn. intros g Hg. apply hh_stress_pos; auto. apply Rlt_le, P.
Qed.
(** A candidate of the wrong size is an error. *)
Theorem C100_candidate_size : forall data p,
  (List.length p <> 3%nat -> mkz_misfit data p = Err ValueError) /\ (List.length p <> 9%nat -> hh_misfit data p = Err ValueError).
Proof.
  intros data p. split; intros H; unfold mkz_misfit, hh_misfit;
    repeat (match goal with |- context [match ?q with [] => _ | _ => _ end] => is_var q; destruct q; [reflexivity|]; cbn [List.length] in H end);
    repeat (match goal with |- context [match ?q with [] => _ | _ => _ end] => is_var q; destruct q; [|reflexivity] end); exfalso; apply H; reflexivity.
Qed.

Lemma rsum_nonneg l : Forall (fun x => 0 <= x) l -> 0 <= rsum l /\ (rsum l = 0 <-> Forall (fun x => x = 0) l).
Proof.
  induction 1 as [|x l Hx H [A B]]; [split; [cbn; lra|split; [constructor|reflexivity]]|]. change (rsum (x :: l)) with (x + rsum l). split; [lra|]. split.
  - intros E. assert (x = 0) by lra. constructor; [assumption|]. apply B. lra.
  - intros E. inversion E; subst. rewrite (proj2 B) by assumption. lra.
Qed.
(** The distance is never negative and zero exactly for equal lists. *)
Theorem C100_error_zero_iff : forall xs ys, xs <> [] -> List.length xs = List.length ys ->
  0 <= mean_abs xs ys /\ (mean_abs xs ys = 0 <-> xs = ys).
Proof.
  intros xs ys Hne L. unfold mean_abs. set (l := map _ _).
  assert (Hl : Forall (fun x => 0 <= x) l) by (apply Forall_map, Forall_forall; intros; apply Rabs_pos).
  destruct (rsum_nonneg l Hl) as [A B]. assert (HI : 0 < / INR (List.length xs)) by (apply Rinv_0_lt_compat, lt_0_INR; destruct xs; [congruence|cbn; lia]).
  split; [apply Rmult_le_pos; lra|]. assert (E : Forall (fun x => x = 0) l <-> xs = ys).
  { unfold l. clear -L. revert ys L. induction xs as [|x xs IH]; intros [|y ys] L; try discriminate; [split; [reflexivity|constructor]|]. cbn [combine map]. split.
    - intros H. inversion H as [|? ? H1 H2]; subst. cbn [fst snd] in H1. f_equal; [destruct (Req_dec (x - y) 0) as [Z|Z]; [lra|apply Rabs_no_R0 in Z; contradiction]|]. apply IH; [cbn in L; lia|exact H2].
    - intros H. injection H as -> ->. constructor; [cbn [fst snd]; rewrite Rminus_eq_0; apply Rabs_R0|]. apply (IH ys eq_refl). reflexivity. }
  rewrite <- E, <- B. unfold Rdiv. split; intros H; [|rewrite H; lra]. apply Rmult_integral in H as [H|H]; [exact H|lra].
Qed.

(** ** Moduli and strengths are not determined by damping *)
Lemma area_scale c es ts : forall pe pt k, area_to pe (c * pt) (combine es (map (fun t => c * t) ts)) k = c * area_to pe pt (combine es ts) k.
Proof.
  revert ts. induction es as [|e es IH]; intros [|t ts] pe pt k; cbn [map combine area_to]; try ring. destruct k as [|k]; [field|]. rewrite IH. field.
Qed.
Lemma masing_scale c es ts k : c <> 0 -> nth k es 0 <> 0 -> nth k ts 0 <> 0 -> masing es (map (fun t => c * t) ts) k = masing es ts k.
Proof.
  intros Hc He Ht. unfold masing. replace (nth k (map (fun t => c * t) ts) 0) with (c * nth k ts 0).
  2:{ clear. revert k. induction ts as [|t ts IH]; intros [|k]; cbn [map nth]; [ring|ring|reflexivity|apply IH]. }
  pose proof (area_scale c es ts 0 0 k) as A. rewrite Rmult_0_r in A. rewrite A. f_equal. f_equal. field. auto.
Qed.
Lemma masing_curve_scale c es ts : c <> 0 -> List.length es = List.length ts -> nonzero es -> nonzero ts ->
  masing_curve es (map (fun t => c * t) ts) = masing_curve es ts.
Proof.
  intros Hc L He Ht. unfold masing_curve. apply map_ext_in. intros k Hk. apply in_seq in Hk. f_equal. unfold nonzero in *. rewrite Forall_forall in He, Ht.
  apply masing_scale; [exact Hc|apply He, nth_In; lia|apply Ht, nth_In; lia].
Qed.
(** The MKZ damping does not depend on the modulus. *)
Theorem C100_H4_modulus_free : forall data gr s b G, usable data -> 0 <= b -> 0 < G ->
  masing_curve (map fst data) (map (mkz_stress gr s b G) (map fst data)) = masing_curve (map fst data) (map (mkz_stress gr s b 1) (map fst data)).
Proof.
  intros data gr s b G H Hb HG. pose proof (usable_strains data H) as Hs.
  replace (map (mkz_stress gr s b G) (map fst data)) with (map (fun t => G * t) (map (mkz_stress gr s b 1) (map fst data))).
  2:{ rewrite (map_map _ (fun t => G * t)). apply map_ext_in. intros g Hg. unfold mkz_stress. unfold Rdiv. ring. }
  apply masing_curve_scale; [lra|rewrite !map_length; reflexivity| |].
  - eapply Forall_impl; [|exact Hs]. cbn. intros; lra.
  - apply Forall_map. eapply Forall_impl; [|exact Hs]. cbn. intros g Hg. apply Rgt_not_eq, mkz_stress_pos; lra.
Qed.
(** Modulus and strength of the HH law scaled together leave the error unchanged: the fit
    cannot determine them, and every best candidate has others as good. *)
Theorem C100_HH_scale_free : forall data gt a gr b s G mu T d c, usable data -> 0 <= b -> 0 < G -> 0 < mu -> 0 < T -> 0 < c ->
  HH_error data gt a gr b s (c * G) mu (c * T) d = HH_error data gt a gr b s G mu T d.
Proof.
  intros data gt a gr b s G mu T d c H Hb HG Hm HT Hc. unfold HH_error. f_equal. pose proof (usable_strains data H) as Hs.
  replace (map (hh_stress gt a gr b s (c * G) mu (c * T) d) (map fst data)) with (map (fun t => c * t) (map (hh_stress gt a gr b s G mu T d) (map fst data))).
  2:{ rewrite (map_map _ (fun t => c * t)). apply map_ext_in. intros g Hg. unfold hh_stress, mkz_stress, fkz_stress.
      replace (c * G / (c * T)) with (G / T) by (field; lra). unfold Rdiv. ring. }
  apply masing_curve_scale; [lra|rewrite !map_length; reflexivity| |].
  - eapply Forall_impl; [|exact Hs]. cbn. intros; lra.
  - apply Forall_map. eapply Forall_impl; [|exact Hs]. cbn. intros g Hg. apply Rgt_not_eq, hh_stress_pos; auto.
Qed.
Theorem C100_HH_candidates_tie : forall data gt a gr b s G mu T d t, usable data ->
  hh_misfit data [gt; a; gr; b; s; G + t; mu; T + t; d] = hh_misfit data [gt; a; gr; b; s; G; mu; T; d].
Proof.
  intros data gt a gr b s G mu T d t H. rewrite !C100_HH_misfit by exact H. f_equal. f_equal. rewrite !Rpower_plus, !(Rmult_comm _ (Rpower 10 t)).
  assert (P : forall t, 0 < Rpower 10 t) by (intros; apply exp_pos). apply C100_HH_scale_free; auto. apply Rlt_le, P.
Qed.

(** ** What the optimisers are given *)
Section Opt.
Variable de : de_call -> loss -> list R.
Variable ea : ea_call -> loss -> list R.

Definition with_parallel (b : bool) (n : option Z) (o : options) : options :=
  mkoptions (o_scipy o) (o_pop o) (o_gen o) (o_lo o) (o_hi o) (o_eta o) (o_seed o) b n.
Definition with_eta (x : R) (o : options) : options :=
  mkoptions (o_scipy o) (o_pop o) (o_gen o) (o_lo o) (o_hi o) x (o_seed o) (o_parallel o) (o_cores o).

(** scipy: one pair of bounds per parameter; the number of individuals (parameters times
    the multiplier) is at most [pop_size] and within one multiple of it, unless
    [pop_size] is below the number of parameters. *)
Theorem C100_scipy_call : forall o data, o_scipy o = true -> exists c9 c3,
  hh_opt de ea o data = de c9 (hh_misfit data) /\ mkz_opt de ea o data = de c3 (mkz_misfit data) /\
  List.length (de_bounds c9) = 9%nat /\ List.length (de_bounds c3) = 3%nat /\
  Forall (fun b => b = (o_lo o, o_hi o)) (de_bounds c9 ++ de_bounds c3) /\
  (forall n c, (n = 9%Z /\ c = c9) \/ (n = 3%Z /\ c = c3) ->
     de_seed c = o_seed o /\ de_maxiter c = o_gen o /\ (1 <= de_popsize c)%Z /\
     ((n <= o_pop o)%Z -> (o_pop o - n < n * de_popsize c <= o_pop o)%Z) /\ ((o_pop o < n)%Z -> (n * de_popsize c = n)%Z) /\
     (de_workers c = (-1)%Z <-> o_parallel o = true /\ o_cores o = None) /\ (de_workers c <> (-1)%Z -> de_workers c = 1%Z)).
Proof.
  intros o data Hs. unfold hh_opt, mkz_opt, ga_optimization. rewrite Hs. eexists _, _. split; [reflexivity|]. split; [reflexivity|].
  cbn [de_bounds de_seed de_maxiter de_popsize de_workers].
  split; [apply repeat_length|]. split; [apply repeat_length|]. split; [repeat constructor|].
  assert (X : forall n, (1 <= n)%Z -> (1 <= Z.max 1 (o_pop o / n))%Z /\ ((n <= o_pop o)%Z -> (o_pop o - n < n * Z.max 1 (o_pop o / n) <= o_pop o)%Z) /\ ((o_pop o < n)%Z -> (n * Z.max 1 (o_pop o / n) = n)%Z)).
  { intros n Hn. split; [lia|]. split; intros H.
    - assert (1 <= o_pop o / n)%Z by (apply Z.div_le_lower_bound; lia). pose proof (Z.mul_div_le (o_pop o) n ltac:(lia)). pose proof (Z.mul_succ_div_gt (o_pop o) n ltac:(lia)). rewrite Z.max_r by lia. lia.
    - assert (o_pop o / n < 1)%Z by (apply Z.div_lt_upper_bound; lia). rewrite Z.max_l by lia. lia. }
  assert (W : ((if o_parallel o && match o_cores o with None => true | _ => false end then (-1)%Z else 1%Z) = (-1)%Z <-> o_parallel o = true /\ o_cores o = None) /\
    ((if o_parallel o && match o_cores o with None => true | _ => false end then (-1)%Z else 1%Z) <> (-1)%Z -> (if o_parallel o && match o_cores o with None => true | _ => false end then (-1)%Z else 1%Z) = 1%Z)).
  { destruct (o_parallel o), (o_cores o); cbn; split; try split; try congruence; intros; try discriminate; intuition congruence. }
  intros n c [[-> ->]|[-> ->]]; cbn [de_seed de_maxiter de_popsize de_workers]; (split; [reflexivity|]; split; [reflexivity|]).
  - destruct (X 9%Z ltac:(lia)) as (X1 & X2 & X3). change (Z.of_nat 9) with 9%Z. split; [exact X1|]. split; [exact X2|]. split; [exact X3|exact W].
  - destruct (X 3%Z ltac:(lia)) as (X1 & X2 & X3). change (Z.of_nat 3) with 3%Z. split; [exact X1|]. split; [exact X2|]. split; [exact X3|exact W].
Qed.

(** DEAP: candidates of as many numbers as there are parameters, between the bounds; one
    mutation per candidate is expected; the population, the generations, the crowding degree
    and the seed are those chosen; the probabilities of crossing and mutation are 0.8. *)
Theorem C100_deap_call : forall o data, o_scipy o = false -> exists c9 c3,
  hh_opt de ea o data = ea c9 (hh_misfit data) /\ mkz_opt de ea o data = ea c3 (mkz_misfit data) /\
  ea_size c9 = 9%nat /\ ea_size c3 = 3%nat /\
  forall c, c = c9 \/ c = c3 -> ea_low c = o_lo o /\ ea_up c = o_hi o /\ INR (ea_size c) * ea_indpb c = 1 /\ ea_eta c = o_eta o /\
    ea_seed c = o_seed o /\ ea_pop c = o_pop o /\ ea_ngen c = o_gen o /\ ea_tournsize c = 10%Z /\ ea_cxpb c = 8/10 /\ ea_mutpb c = 8/10.
Proof.
  intros o data Hs. unfold hh_opt, mkz_opt, ga_optimization. rewrite Hs. eexists _, _. split; [reflexivity|]. split; [reflexivity|].
  cbn [ea_size]. split; [reflexivity|]. split; [reflexivity|]. intros c [-> | ->]; cbn [ea_low ea_up ea_size ea_indpb ea_eta ea_seed ea_pop ea_ngen ea_tournsize ea_cxpb ea_mutpb];
  (split; [reflexivity|]; split; [reflexivity|]; split; [cbn [INR]; field|]; repeat split).
Qed.

(** With scipy the crowding degree has no effect, and a parallel fit for which a number of
    cores is given is a serial fit; with DEAP neither option about processes matters. *)
Theorem C100_ignored_options : forall o data n b x,
  (o_scipy o = true -> hh_opt de ea (with_eta x o) data = hh_opt de ea o data /\ mkz_opt de ea (with_eta x o) data = mkz_opt de ea o data) /\
  hh_opt de ea (with_parallel true (Some n) o) data = hh_opt de ea (with_parallel false None o) data /\
  mkz_opt de ea (with_parallel true (Some n) o) data = mkz_opt de ea (with_parallel false None o) data /\
  (o_scipy o = false -> forall m, hh_opt de ea (with_parallel b m o) data = hh_opt de ea o data /\ mkz_opt de ea (with_parallel b m o) data = mkz_opt de ea o data).
Proof.
  intros o data n b x. unfold hh_opt, mkz_opt, ga_optimization, with_eta, with_parallel. cbn [o_scipy o_pop o_gen o_lo o_hi o_eta o_seed o_parallel o_cores].
  split; [intros ->; split; reflexivity|]. split; [destruct (o_scipy o); reflexivity|]. split; [destruct (o_scipy o); reflexivity|]. intros -> m. split; reflexivity.
Qed.

(** ** The results *)
Definition in_range (lo hi : R) (n : nat) (x : list R) : Prop := List.length x = n /\ Forall (fun v => lo <= v <= hi) x.
(** [x] is a best candidate. *)
Definition best (f : loss) (lo hi : R) (n : nat) (x : list R) : Prop :=
  in_range lo hi n x /\ exists m, f x = Ok (Fin m) /\ forall y m', in_range lo hi n y -> f y = Ok (Fin m') -> m <= m'.

Lemma fit_data_usable s : s <> [] -> usable (fit_data s).
Proof.
  intros Hs. unfold fit_data. destruct (np_interp_ok (map (fun p => (fst p / 100, snd p / 100)) (offset s)) dense_strain) as (ys & -> & L & _); [destruct s; [congruence|discriminate]|].
  assert (HD : List.length dense_strain = 122%nat) by (unfold dense_strain, logspace; rewrite map_length; apply P_interp.linspace_length).
  split.
  - intros E. apply (f_equal (@List.length _)) in E. rewrite combine_length, HD in E. assert (L2 : List.length ys = 122%nat) by congruence. rewrite L2 in E. discriminate.
  - apply Forall_forall. intros [x y] H. apply in_combine_l in H. unfold dense_strain, logspace in H. apply in_map_iff in H as (t & <- & _). cbn [fst]. apply exp_pos.
Qed.

Lemma init_HH data opt : param_init HH_keys (Some (HH_result opt data)) = Ok (HH_result opt data).
Proof. apply (proj2 (C40_constructor HH_keys (Some (HH_result opt data))) _ eq_refl); [exact NoDup_HH|intros k; reflexivity]. Qed.
Lemma init_H4 data opt : param_init MKZ_keys (Some (H4_result opt data)) = Ok (H4_result opt data).
Proof. apply (proj2 (C40_constructor MKZ_keys (Some (H4_result opt data))) _ eq_refl); [exact NoDup_MKZ|intros k; reflexivity]. Qed.

(** Reading the sampled data: strains of the curve in unit 1, dampings less the first one. *)
Lemma get_H4_run o sh c : (c_raw c < List.length sh)%nat -> nonneg (sig_at sh (c_raw c)) -> sig_at sh (c_raw c) <> [] ->
  snd (get_H4_x de ea o sh c) = Ok (H4_result (mkz_opt de ea o) (fit_data (sig_at sh (c_raw c)))).
Proof.
  intros Hl Hn Hne. destruct (fit_prepare_ok sh (c_raw c) Hl Hn Hne) as (h' & E & _). unfold get_H4_x, fit_H4. rewrite E. cbn [snd bind]. apply init_H4.
Qed.
Lemma get_HH_run o sh c : (c_raw c < List.length sh)%nat -> nonneg (sig_at sh (c_raw c)) -> sig_at sh (c_raw c) <> [] ->
  snd (get_HH_x de ea o sh c) = Ok (HH_result (hh_opt de ea o) (fit_data (sig_at sh (c_raw c)))).
Proof.
  intros Hl Hn Hne. destruct (fit_prepare_ok sh (c_raw c) Hl Hn Hne) as (h' & E & _). unfold get_HH_x, fit_HH. rewrite E. cbn [snd bind]. apply init_HH.
Qed.

Lemma pow_range lo hi x : lo <= x <= hi -> Rpower 10 lo <= Rpower 10 x <= Rpower 10 hi.
Proof. intros [A B]. split; apply Rle_Rpower; lra. Qed.
Lemma ln_mono x y : 0 < x -> x <= y -> ln x <= ln y.
Proof. intros H [L| ->]; [apply Rlt_le, ln_increasing; assumption|lra]. Qed.
Lemma log_range lo hi x : Rpower 10 lo <= x <= Rpower 10 hi -> exists y, lo <= y <= hi /\ Rpower 10 y = x.
Proof.
  intros [A B]. assert (L : 0 < ln 10) by (rewrite <- ln_1; apply ln_increasing; lra). assert (X : 0 < x) by (pose proof (exp_pos (lo * ln 10)); unfold Rpower in A; lra).
  exists (ln x / ln 10). assert (E : ln x / ln 10 * ln 10 = ln x) by (field; lra). split.
  - apply (ln_mono _ _ (exp_pos _)) in A. apply (ln_mono _ _ X) in B. unfold Rpower in A, B. rewrite ln_exp in A. rewrite ln_exp in B.
    split; apply Rmult_le_reg_r with (ln 10); try lra; rewrite E; assumption.
  - unfold Rpower. rewrite E. apply exp_ln, X.
Qed.

(** A fit of a usable curve succeeds; if the optimiser stays within its bounds every
    parameter does. *)
Theorem C100_within_bounds : forall o sh c, (c_raw c < List.length sh)%nat -> nonneg (sig_at sh (c_raw c)) -> sig_at sh (c_raw c) <> [] ->
  (in_range (o_lo o) (o_hi o) 9 (hh_opt de ea o (fit_data (sig_at sh (c_raw c)))) ->
     exists d, snd (get_HH_x de ea o sh c) = Ok d /\ keys d = HH_keys /\ Forall (fun kv => Rpower 10 (o_lo o) <= snd kv <= Rpower 10 (o_hi o)) d) /\
  (in_range (o_lo o) (o_hi o) 3 (mkz_opt de ea o (fit_data (sig_at sh (c_raw c)))) ->
     exists gr s b, snd (get_H4_x de ea o sh c) = Ok [("gamma_ref", gr); ("s", s); ("beta", b); ("Gmax", 1)] /\
       Forall (fun v => Rpower 10 (o_lo o) <= v <= Rpower 10 (o_hi o)) [gr; s; b]).
Proof.
  intros o sh c Hl Hn Hne. set (data := fit_data _). split.
  - intros [L HF]. exists (HH_result (hh_opt de ea o) data). split; [apply get_HH_run; assumption|]. split; [reflexivity|]. unfold HH_result. set (x := hh_opt de ea o data) in *. clearbody x.
    do 9 (destruct x as [|? x]; [discriminate|]). destruct x; [|discriminate]. cbn [HH_keys combine seq map nth fst snd].
    repeat (apply Forall_cons_iff in HF as [? HF]; constructor; [cbn [snd]; apply pow_range; assumption|]). constructor.
  - intros [L HF]. set (x := mkz_opt de ea o data) in *. exists (Rpower 10 (nth 0 x 0)), (Rpower 10 (nth 1 x 0)), (Rpower 10 (nth 2 x 0)). split; [apply get_H4_run; assumption|].
    clearbody x. do 3 (destruct x as [|? x]; [discriminate|]). cbn [nth]. repeat (apply Forall_cons_iff in HF as [? HF]; constructor; [apply pow_range; assumption|]). constructor.
Qed.

(** If the optimiser returns a best candidate, the parameters have the smallest error of
    all parameters within the bounds. *)
Theorem C100_H4_best : forall o sh c, (c_raw c < List.length sh)%nat -> nonneg (sig_at sh (c_raw c)) -> sig_at sh (c_raw c) <> [] ->
  let data := fit_data (sig_at sh (c_raw c)) in
  best (mkz_misfit data) (o_lo o) (o_hi o) 3 (mkz_opt de ea o data) ->
  exists gr s b, snd (get_H4_x de ea o sh c) = Ok [("gamma_ref", gr); ("s", s); ("beta", b); ("Gmax", 1)] /\
    forall gr' s' b', Forall (fun v => Rpower 10 (o_lo o) <= v <= Rpower 10 (o_hi o)) [gr'; s'; b'] ->
      H4_error data gr s b <= H4_error data gr' s' b'.
Proof.
  intros o sh c Hl Hn Hne data ((L & _) & m & Em & Hm). pose proof (fit_data_usable _ Hne) as HU. fold data in HU.
  pose proof (get_H4_run o sh c Hl Hn Hne) as ER. fold data in ER. unfold H4_result in ER. set (x := mkz_opt de ea o data) in *. clearbody x.
  destruct x as [|x0 x]; [discriminate|]. destruct x as [|x1 x]; [discriminate|]. destruct x as [|x2 x]; [discriminate|]. destruct x; [|discriminate]. cbn [nth] in ER.
  exists (Rpower 10 x0), (Rpower 10 x1), (Rpower 10 x2). split; [exact ER|]. intros gr' s' b' HF.
  apply Forall_cons_iff in HF as [A HF]. apply Forall_cons_iff in HF as [B HF]. apply Forall_cons_iff in HF as [C _].
  apply log_range in A as (y0 & Y0 & <-). apply log_range in B as (y1 & Y1 & <-). apply log_range in C as (y2 & Y2 & <-).
  rewrite C100_H4_misfit in Em by exact HU. injection Em as <-. apply (Hm [y0; y1; y2]); [split; [reflexivity|repeat (apply Forall_cons; [assumption|]); apply Forall_nil]|]. apply C100_H4_misfit, HU.
Qed.
Theorem C100_HH_best : forall o sh c, (c_raw c < List.length sh)%nat -> nonneg (sig_at sh (c_raw c)) -> sig_at sh (c_raw c) <> [] ->
  let data := fit_data (sig_at sh (c_raw c)) in
  best (hh_misfit data) (o_lo o) (o_hi o) 9 (hh_opt de ea o data) ->
  exists gt a gr b s G mu T d,
    snd (get_HH_x de ea o sh c) = Ok [("gamma_t", gt); ("a", a); ("gamma_ref", gr); ("beta", b); ("s", s); ("Gmax", G); ("mu", mu); ("Tmax", T); ("d", d)] /\
    forall gt' a' gr' b' s' G' mu' T' d', Forall (fun v => Rpower 10 (o_lo o) <= v <= Rpower 10 (o_hi o)) [gt'; a'; gr'; b'; s'; G'; mu'; T'; d'] ->
      HH_error data gt a gr b s G mu T d <= HH_error data gt' a' gr' b' s' G' mu' T' d'.
Proof.
  intros o sh c Hl Hn Hne data ((L & _) & m & Em & Hm). pose proof (fit_data_usable _ Hne) as HU. fold data in HU.
  pose proof (get_HH_run o sh c Hl Hn Hne) as ER. fold data in ER. unfold HH_result in ER. set (x := hh_opt de ea o data) in *. clearbody x.
  destruct x as [|x0 [|x1 [|x2 [|x3 [|x4 [|x5 [|x6 [|x7 [|x8 [|]]]]]]]]]]; try discriminate L. cbn [HH_keys combine seq map nth fst snd] in ER.
  exists (Rpower 10 x0), (Rpower 10 x1), (Rpower 10 x2), (Rpower 10 x3), (Rpower 10 x4), (Rpower 10 x5), (Rpower 10 x6), (Rpower 10 x7), (Rpower 10 x8). split; [exact ER|].
  intros gt' a' gr' b' s' G' mu' T' d' HF. rewrite C100_HH_misfit in Em by exact HU. injection Em as <-.
  apply Forall_cons_iff in HF as [A0 HF]. apply Forall_cons_iff in HF as [A1 HF]. apply Forall_cons_iff in HF as [A2 HF]. apply Forall_cons_iff in HF as [A3 HF].
  apply Forall_cons_iff in HF as [A4 HF]. apply Forall_cons_iff in HF as [A5 HF]. apply Forall_cons_iff in HF as [A6 HF]. apply Forall_cons_iff in HF as [A7 HF]. apply Forall_cons_iff in HF as [A8 _].
  apply log_range in A0 as (y0 & Y0 & <-). apply log_range in A1 as (y1 & Y1 & <-). apply log_range in A2 as (y2 & Y2 & <-). apply log_range in A3 as (y3 & Y3 & <-).
  apply log_range in A4 as (y4 & Y4 & <-). apply log_range in A5 as (y5 & Y5 & <-). apply log_range in A6 as (y6 & Y6 & <-). apply log_range in A7 as (y7 & Y7 & <-). apply log_range in A8 as (y8 & Y8 & <-).
  apply (Hm [y0; y1; y2; y3; y4; y5; y6; y7; y8]); [split; [reflexivity|repeat (apply Forall_cons; [assumption|]); apply Forall_nil]|]. apply C100_HH_misfit, HU.
Qed.

(** Fitting all layers at once gives each layer what its own serial fit gives, whatever
    the options about processes (a pool of fewer than one process is an error). *)
Definition pool_ok (o : options) : Prop := o_parallel o = true -> forall n, o_cores o = Some n -> (1 <= n)%Z.
Definition no_files : saving := mksaving false false None false None None.
Lemma map_init_HH (opt : list (R * R) -> list R) (l : list (list (R * R))) :
  map_res (fun d => param_init HH_keys (Some d)) (map (HH_result opt) l) = Ok (map (HH_result opt) l).
Proof. induction l as [|x l IH]; [reflexivity|]. cbn [map map_res]. rewrite init_HH. cbn [bind]. rewrite IH. reflexivity. Qed.
Lemma map_init_H4 (opt : list (R * R) -> list R) (l : list (list (R * R))) :
  map_res (fun d => param_init MKZ_keys (Some d)) (map (H4_result opt) l) = Ok (map (H4_result opt) l).
Proof. induction l as [|x l IH]; [reflexivity|]. cbn [map map_res]. rewrite init_H4. cbn [bind]. rewrite IH. reflexivity. Qed.

Lemma pool_test o : pool_ok o -> o_parallel o && match o_cores o with Some n => Z.ltb n 1 | None => false end = false.
Proof.
  intros H. destruct (o_parallel o) eqn:P; [|reflexivity]. cbn [andb]. destruct (o_cores o) as [n|] eqn:N; [|reflexivity].
  apply Z.ltb_ge. exact (H P n N).
Qed.

Lemma fit_all_results fit result b sh (cs : list curve) : (forall h l, fit h l = (fst (fit_prepare h l), let! d := snd (fit_prepare h l) in Ok (result d))) ->
  (forall c, In c cs -> (c_raw c < List.length sh)%nat /\ fit_ready (sig_at sh (c_raw c))) ->
  snd (fit_all fit b sh (map c_raw cs)) = Ok (map result (map (fun c => fit_data (sig_at sh (c_raw c))) cs)).
Proof.
  intros Hr H. assert (H' : forall l, In l (map c_raw cs) -> (l < List.length sh)%nat /\ fit_ready (sig_at sh l)).
  { intros l Hl. apply in_map_iff in Hl as (c & <- & Hc). apply H, Hc. }
  unfold fit_all. replace (existsb (fun l => existsb neg_cell (sig_at sh l)) (map c_raw cs)) with false.
  2:{ symmetry. apply not_true_iff_false. intros X. apply existsb_exists in X as (l & Hl & X). destruct (H' l Hl) as [_ (_ & Hn & _)]. apply neg_cell_true in X. contradiction. }
  replace (map result (map (fun c => fit_data (sig_at sh (c_raw c))) cs)) with (map (fun l => result (fit_data (sig_at sh l))) (map c_raw cs)) by (rewrite !map_map; reflexivity).
  destruct b; cbn [snd].
  - apply (map_res_ok _ (fun l => result (fit_data (sig_at sh l)))). intros l Hi. destruct (H' l Hi) as [Hl (Hne & Hn & _)].
    destruct (fit_prepare_ok sh l Hl Hn Hne) as (h1 & E1 & _). rewrite Hr, E1. reflexivity.
  - destruct (serial_core fit result Hr (map c_raw cs) sh sh H' eq_refl (fun l => or_introl eq_refl)) as (h' & E & _). rewrite E. reflexivity.
Qed.

Theorem C100_all_layers : forall fmt o filename sep sh cs, pool_ok o ->
  (forall c, In c cs -> (c_raw c < List.length sh)%nat /\ fit_ready (sig_at sh (c_raw c))) ->
  (exists ps, snd (get_all_HH_x de ea fmt o filename sep no_files sh cs) = Ok (ps, []) /\
     Forall2 (fun c p => snd (get_HH_x de ea (with_parallel false None o) sh c) = Ok p) cs ps) /\
  (exists ps, snd (get_all_H4_x de ea fmt o filename sep no_files sh cs) = Ok (ps, []) /\
     Forall2 (fun c p => snd (get_H4_x de ea (with_parallel false None o) sh c) = Ok p) cs ps).
Proof.
  intros fmt o filename sep sh cs Ho H. set (o' := with_parallel false None o). split.
  - exists (map (HH_result (hh_opt de ea o')) (map (fun c => fit_data (sig_at sh (c_raw c))) cs)). split.
    + unfold get_all_HH_x, get_all. cbn [no_files fig_name txt_name v_fig v_txt v_fig_name v_txt_name bind]. rewrite (pool_test o Ho).
      pose proof (fit_all_results (fit_HH (hh_opt de ea o')) (HH_result (hh_opt de ea o')) (o_parallel o) sh cs ltac:(intros h l; unfold fit_HH; destruct (fit_prepare h l); reflexivity) H) as X.
      change (loop_options o) with o'. destruct (fit_all _ _ _ _) as [sh1 r]. cbn [snd] in X |- *. rewrite X. cbn [bind files no_files v_txt v_fig v_show mkeys HH andb].
      rewrite map_init_HH. reflexivity.
    + clear -H. induction cs as [|c cs IH]; [constructor|]. cbn [map]. constructor; [|apply IH; intros; apply H; right; assumption].
      destruct (H c (or_introl eq_refl)) as [Hl (Hne & Hn & _)]. apply get_HH_run; assumption.
  - exists (map (H4_result (mkz_opt de ea o')) (map (fun c => fit_data (sig_at sh (c_raw c))) cs)). split.
    + unfold get_all_H4_x, get_all. cbn [no_files fig_name txt_name v_fig v_txt v_fig_name v_txt_name bind]. rewrite (pool_test o Ho).
      pose proof (fit_all_results (fit_H4 (mkz_opt de ea o')) (H4_result (mkz_opt de ea o')) (o_parallel o) sh cs ltac:(intros h l; unfold fit_H4; destruct (fit_prepare h l); reflexivity) H) as X.
      change (loop_options o) with o'. destruct (fit_all _ _ _ _) as [sh1 r]. cbn [snd] in X |- *. rewrite X. cbn [bind files no_files v_txt v_fig v_show mkeys MKZ andb].
      rewrite map_init_H4. reflexivity.
    + clear -H. induction cs as [|c cs IH]; [constructor|]. cbn [map]. constructor; [|apply IH; intros; apply H; right; assumption].
      destruct (H c (or_introl eq_refl)) as [Hl (Hne & Hn & _)]. apply get_H4_run; assumption.
Qed.
Theorem C100_empty_pool : forall fmt o filename sep v sh cs n, o_parallel o = true -> o_cores o = Some n -> (n < 1)%Z ->
  snd (get_all_HH_x de ea fmt o filename sep v sh cs) = Err ValueError /\ fst (get_all_HH_x de ea fmt o filename sep v sh cs) = sh.
Proof.
  intros fmt o filename sep v sh cs n P N L. unfold get_all_HH_x, get_all. rewrite P, N, (proj2 (Z.ltb_lt n 1) L). cbn [andb].
  assert (X : forall e, (let! f := fig_name filename "HH" v in let! t := txt_name filename "HH" v in Ok (f, t)) = Err e -> e = ValueError).
  { unfold fig_name, txt_name, output_file_name. intros e. destruct (v_fig v), (v_fig_name v), (v_txt v), (v_txt_name v), filename; cbn [bind]; congruence. }
  destruct (let! f := fig_name filename "HH" v in let! t := txt_name filename "HH" v in Ok (f, t)) as [[f t]|e] eqn:E; cbn [fst snd]; [auto|]. rewrite (X e eq_refl). auto.
Qed.
End Opt.

(** Optimisers that answer zeros (every parameter 1), and a curve with two points. *)
Example C100_instance :
  let de := fun (c : de_call) (_ : loss) => map fst (de_bounds c) in
  let ea := fun (c : ea_call) (_ : loss) => repeat (ea_low c) (ea_size c) in
  let o := mkoptions true 800 100 0 6 (1/10) 0 true (Some 4%Z) in
  let sh : sheap := [[(1, 2); (3, 5)]] in
  let c := mkcurve 0 0 in
  (c_raw c < List.length sh)%nat /\ fit_ready (sig_at sh (c_raw c)) /\ usable (fit_data (sig_at sh (c_raw c))) /\ pool_ok o /\
  in_range (o_lo o) (o_hi o) 9 (hh_opt de ea o (fit_data (sig_at sh (c_raw c)))) /\
  snd (get_H4_x de ea o sh c) = Ok [("gamma_ref", 1); ("s", 1); ("beta", 1); ("Gmax", 1)].
Proof.
  intros de ea o sh c. assert (R : fit_ready (sig_at sh (c_raw c))).
  { split; [discriminate|]. split; repeat constructor; cbn; lra. }
  split; [cbn; lia|]. split; [exact R|]. split; [apply fit_data_usable; discriminate|].
  split; [intros _ n H; injection H as <-; lia|]. split; [split; [reflexivity|unfold hh_opt, ga_optimization; cbn [o o_scipy o_lo o_hi de de_bounds repeat map fst]; repeat (apply Forall_cons; [lra|]); apply Forall_nil]|].
  rewrite get_H4_run; [|cbn; lia|apply R|discriminate]. unfold H4_result, mkz_opt, ga_optimization. cbn [o o_scipy o_lo o_hi de de_bounds repeat map fst nth]. rewrite Rpower_O by lra. reflexivity.
Qed.

(** A box of one point: its point is best. *)
Example C100_best_instance : forall data, usable data -> best (mkz_misfit data) 0 0 3 [0; 0; 0].
Proof.
  intros data H. split; [split; [reflexivity|repeat constructor; lra]|]. exists (H4_error data 1 1 1).
  assert (E : mkz_misfit data [0; 0; 0] = Ok (Fin (H4_error data 1 1 1))) by (rewrite C100_H4_misfit by exact H; rewrite Rpower_O by lra; reflexivity).
  split; [exact E|]. intros y m' [L HF] Ey. destruct y as [|a [|b [|c [|]]]]; try discriminate L.
  apply Forall_cons_iff in HF as [A HF]. apply Forall_cons_iff in HF as [B HF]. apply Forall_cons_iff in HF as [C _].
  assert (a = 0) by lra. assert (b = 0) by lra. assert (c = 0) by lra. subst. rewrite E in Ey. injection Ey as <-. lra.
Qed.
