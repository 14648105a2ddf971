(** C121: stresses, modulus reduction and damping of a set of soil parameters, and their figure. *)
From Coq Require Import Reals List Bool ZArith String Lia Lra.
From Verif Require Import Base M_generic P_generic M_interp P_interp M_soil P_soil Prop_soil M_params P_params Prop_params M_fits Prop_dfits M_curvemat M_figures P_figures M_figres Prop_figres M_lawcurves.
Import ListNotations.
Open Scope string_scope.
Open Scope list_scope.
Open Scope R_scope.

(** ** Specification *)
(** The dictionary holds these items and no others, in whatever order. *)
Definition consists (d items : dict) : Prop :=
  (forall k, In k (map fst d) <-> In k (map fst items)) /\ forall k v, In (k, v) items -> dget k d = Some v.
Definition MKZ_set (d : dict) (gr s b G : R) : Prop :=
  consists d [("gamma_ref", gr); ("s", s); ("beta", b); ("Gmax", G)].
Definition HH_set (d : dict) (gt a gr b s G mu T dd : R) : Prop :=
  consists d [("gamma_t", gt); ("a", a); ("gamma_ref", gr); ("beta", b); ("s", s); ("Gmax", G); ("mu", mu); ("Tmax", T); ("d", dd)].
(** Strains in percent. *)
Definition strains (l : list R) : Prop := l <> [] /\ Forall (fun x => 0 < x) l.
Definition hundredth (l : list R) : list R := map (fun x => x / 100) l.
(** Numbers of a result. *)
Definition numeric (r : res (list num)) (l : list R) : Prop := r = Ok (map Fin l).

(** ** Lemmas *)
Lemma consists_keys d items m : consists d items -> map fst items = law_keys m \/ (forall k, In k (map fst items) <-> In k (law_keys m)) -> same_keys d (law_keys m) = true.
Proof.
  intros [HK _] HI. apply same_keys_iff. intros k. unfold keys. rewrite (HK k). destruct HI as [->|HI]; [reflexivity|apply HI].
Qed.
Lemma consists_get d items k v : consists d items -> In (k, v) items -> at_key d k = v.
Proof. intros [_ H] HI. unfold at_key. rewrite (H k v HI). reflexivity. Qed.

Lemma stress_MKZ d gr s b G st : MKZ_set d gr s b G -> 0 < gr -> 0 < s -> 0 <= b -> Forall (fun x => 0 < x) st ->
  func_stress LMKZ d st = Ok (map Fin (map (mkz_stress gr s b G) st)).
Proof.
  intros HD Hgr Hs Hb HF. unfold func_stress. rewrite (consists_keys _ _ LMKZ HD) by (left; reflexivity).
  rewrite (consists_get _ _ "gamma_ref" gr HD), (consists_get _ _ "beta" b HD), (consists_get _ _ "s" s HD), (consists_get _ _ "Gmax" G HD) by (cbn; tauto).
  f_equal. apply map_fin_ext; [exact HF|]. intros x Hx. apply mkz_stress_val; auto.
Qed.
Lemma stress_HH d gt a gr b s G mu T dd st : HH_set d gt a gr b s G mu T dd -> 0 < gt -> 0 < gr -> 0 < s -> 0 <= b -> 0 < G -> 0 < mu -> 0 < T -> 0 < dd -> Forall (fun x => 0 < x) st ->
  func_stress LHH d st = Ok (map Fin (map (hh_stress gt a gr b s G mu T dd) st)).
Proof.
  intros HD Hgt Hgr Hs Hb HG Hm HT Hd HF. unfold func_stress. rewrite (consists_keys _ _ LHH HD) by (left; reflexivity).
  rewrite (consists_get _ _ "gamma_t" gt HD), (consists_get _ _ "a" a HD), (consists_get _ _ "gamma_ref" gr HD), (consists_get _ _ "beta" b HD), (consists_get _ _ "s" s HD), (consists_get _ _ "Gmax" G HD),
    (consists_get _ _ "mu" mu HD), (consists_get _ _ "Tmax" T HD), (consists_get _ _ "d" dd HD) by (cbn; tauto).
  unfold tau_HH, transition_function. rewrite (proj2 (Rltb_true 0 gt)) by exact Hgt. cbn [bind]. f_equal.
  apply map_fin_ext; [exact HF|]. intros x Hx. apply hh_stress_val; auto.
Qed.

Lemma unit1_is l : unit1 l = hundredth l. Proof. reflexivity. Qed.
Lemma hundredth_pos l : Forall (fun x => 0 < x) l -> Forall (fun x => 0 < x) (hundredth l).
Proof. intros H. apply Forall_map. eapply Forall_impl; [|exact H]. cbn. intros. lra. Qed.
Lemma fin_prefix_fins ts : fin_prefix (map Fin ts) = ts.
Proof. induction ts as [|t ts IH]; [reflexivity|]. cbn. rewrite IH. reflexivity. Qed.

Lemma GGmax_core m d st (f : R -> R) : strains st -> func_stress m d (hundredth st) = Ok (map Fin (map f (hundredth st))) ->
  get_GGmax m d st = Ok (map Fin (map (fun x => f (x / 100) / (x / 100) / at_key d "Gmax") st)).
Proof.
  intros [Hne HF] E. unfold get_GGmax, get_stress. rewrite unit1_is, E. cbn [bind].
  destruct st as [|x st]; [congruence|]. unfold get. cbn [hundredth map nth_error bind].
  pose proof (Forall_inv HF) as Hx. cbn in Hx. rewrite (proj2 (Reqb_false (x / 100) 0)) by lra. cbn [negb]. f_equal.
  change (map (fun te => match fst te with Fin t => Fin (t / snd te / at_key d "Gmax") | _ => NaN end)
    (combine (map Fin (map f (hundredth (x :: st)))) (hundredth (x :: st))) = map Fin (map (fun x => f (x / 100) / (x / 100) / at_key d "Gmax") (x :: st))).
  generalize (x :: st) as l. clear. induction l as [|y l IH]; [reflexivity|]. cbn [hundredth map combine fst snd]. f_equal. exact IH.
Qed.

Lemma damping_core m d st ts : strains st -> List.length ts = List.length st -> func_stress m d (hundredth st) = Ok (map Fin ts) -> Forall (fun t => 0 < t) ts -> at_key d "Gmax" <> 0 ->
  get_damping m d st = Ok (map Fin (map (fun x => x * 100) (masing_curve (hundredth st) ts))).
Proof.
  intros [Hne HF] L E HT HG. unfold get_damping. rewrite unit1_is, E. cbn [bind].
  assert (E0 : exists e0, get (hundredth st) 0 = Ok e0 /\ e0 <> 0).
  { destruct st as [|x st]; [congruence|]. exists (x / 100). split; [reflexivity|]. pose proof (Forall_inv HF) as Hx. cbn in Hx. lra. }
  destruct E0 as (e0 & -> & He0). cbn [bind]. rewrite (proj2 (Reqb_false e0 0)) by exact He0. cbn [negb]. rewrite fin_prefix_fins.
  assert (Lh : List.length (hundredth st) = List.length ts) by (unfold hundredth; rewrite map_length; auto).
  assert (Hh : hundredth st <> []) by (destruct st; [congruence|discriminate]).
  destruct ts as [|t ts]; [destruct st; [congruence|discriminate]|].
  rewrite <- Lh, firstn_all, map_length.
  assert (N1 : nonzero (hundredth st)) by (eapply Forall_impl; [|apply (hundredth_pos _ HF)]; cbn; intros; lra).
  assert (N2 : nonzero (t :: ts)) by (eapply Forall_impl; [|exact HT]; cbn; intros; lra).
  destruct (C45_damping_curve (hundredth st) (t :: ts) (at_key d "Gmax") Lh Hh HG N1 N2) as (ds & -> & Ld & Hd & _). cbn [bind].
  rewrite Lh, Nat.sub_diag. cbn [repeat]. rewrite app_nil_r. f_equal. rewrite <- map_map with (f := fun x => x * 100) (g := Fin). f_equal. f_equal.
  apply (nth_ext _ _ 0 0); [rewrite masing_curve_length; exact Ld|]. intros k Hk. rewrite Ld in Hk. rewrite Hd, masing_curve_nth by exact Hk. reflexivity.
Qed.

(** ** The curves *)
(** MKZ parameters: the stress of the law, the ratio 1 / (1 + beta (strain / gamma_ref)^s), and the Masing damping of the
    stresses in percent. *)
Theorem C121_MKZ : forall d gr s b G st, MKZ_set d gr s b G -> 0 < gr -> 0 < s -> 0 <= b -> 0 < G -> strains st ->
  numeric (get_stress LMKZ d st) (map (mkz_stress gr s b G) (hundredth st)) /\
  numeric (get_GGmax LMKZ d st) (map (fun x => / (1 + b * Rpower (x / gr) s)) (hundredth st)) /\
  numeric (get_damping LMKZ d st) (map (fun x => x * 100) (masing_curve (hundredth st) (map (mkz_stress gr s b G) (hundredth st)))).
Proof.
  intros d gr s b G st HD Hgr Hs Hb HG HS. pose proof (hundredth_pos _ (proj2 HS)) as HP.
  pose proof (stress_MKZ d gr s b G _ HD Hgr Hs Hb HP) as E. split; [exact E|].
  assert (EG : at_key d "Gmax" = G) by (apply (consists_get _ _ "Gmax" G HD); cbn; tauto). split.
  - unfold numeric. rewrite (GGmax_core LMKZ d st _ HS E), EG. do 2 f_equal. unfold hundredth. rewrite map_map. apply map_ext_in. intros x Hx.
    pose proof (proj1 (Forall_forall _ _) (proj2 HS) x Hx) as Px. cbn in Px. unfold mkz_stress. pose proof (exp_pos (s * ln (x / 100 / gr))) as Hp. change (exp (s * ln (x / 100 / gr))) with (Rpower (x / 100 / gr) s) in Hp.
    field. nra.
  - unfold numeric. apply (damping_core LMKZ d st _ HS); [unfold hundredth; rewrite !map_length; reflexivity|exact E| |rewrite EG; lra].
    apply Forall_map. eapply Forall_impl; [|exact HP]. cbn. intros x Hx. apply mkz_stress_pos; auto.
Qed.

(** HH parameters: the same with the stress of that law. *)
Theorem C121_HH : forall d gt a gr b s G mu T dd st, HH_set d gt a gr b s G mu T dd ->
  0 < gt -> 0 < gr -> 0 < s -> 0 <= b -> 0 < G -> 0 < mu -> 0 < T -> 0 < dd -> strains st ->
  let stress := hh_stress gt a gr b s G mu T dd in
  numeric (get_stress LHH d st) (map stress (hundredth st)) /\
  numeric (get_GGmax LHH d st) (map (fun x => stress x / x / G) (hundredth st)) /\
  numeric (get_damping LHH d st) (map (fun x => x * 100) (masing_curve (hundredth st) (map stress (hundredth st)))).
Proof.
  intros d gt a gr b s G mu T dd st HD Hgt Hgr Hs Hb HG Hm HT Hd HS stress. pose proof (hundredth_pos _ (proj2 HS)) as HP.
  pose proof (stress_HH d gt a gr b s G mu T dd _ HD Hgt Hgr Hs Hb HG Hm HT Hd HP) as E. split; [exact E|].
  assert (EG : at_key d "Gmax" = G) by (apply (consists_get _ _ "Gmax" G HD); cbn; tauto). split.
  - unfold numeric. rewrite (GGmax_core LHH d st _ HS E), EG. do 2 f_equal. unfold hundredth. rewrite map_map. reflexivity.
  - unfold numeric. apply (damping_core LHH d st _ HS); [unfold hundredth; rewrite !map_length; reflexivity|exact E| |rewrite EG; lra].
    apply Forall_map. eapply Forall_impl; [|exact HP]. cbn. intros x Hx. apply hh_stress_pos; auto.
Qed.

(** ** The unit of stress does not matter *)
Lemma area_scale c es : forall pe pt k, area_to pe (c * pt) (map (fun p => (fst p, c * snd p)) es) k = c * area_to pe pt es k.
Proof.
  induction es as [|[e t] es IH]; intros pe pt k; cbn [map area_to fst snd]; [lra|]. destruct k as [|k]; [lra|]. rewrite IH. lra.
Qed.
Lemma masing_scale c es ts k : c <> 0 -> masing es (map (fun t => c * t) ts) k = masing es ts k.
Proof.
  intros Hc. unfold masing.
  assert (EC : forall l1 l2, combine l1 (map (fun t => c * t) l2) = map (fun p : R * R => (fst p, c * snd p)) (combine l1 l2)).
  { clear. induction l1 as [|x l1 IH]; intros [|y l2]; try reflexivity. cbn [map combine fst snd]. rewrite IH. reflexivity. }
  rewrite EC. pose proof (area_scale c (combine es ts) 0 0 k) as HA. rewrite Rmult_0_r in HA. rewrite HA.
  replace (nth k (map (fun t => c * t) ts) 0) with (c * nth k ts 0).
  - unfold Rdiv. rewrite !Rinv_mult. set (A := area_to 0 0 (combine es ts) k). set (u := / nth k es 0). set (v := / nth k ts 0).
    replace (2 * (c * A) * (u * (/ c * v))) with (2 * A * (u * v) * (c * / c)) by ring. rewrite Rinv_r by exact Hc. ring.
  - clear. revert k. induction ts as [|t ts IH]; intros [|k]; cbn [map nth]; try lra. apply IH.
Qed.
Lemma masing_curve_scale c es ts : c <> 0 -> masing_curve es (map (fun t => c * t) ts) = masing_curve es ts.
Proof. intros Hc. unfold masing_curve. apply map_ext. intros k. rewrite masing_scale by exact Hc. reflexivity. Qed.

Theorem C121_unit_of_stress : 
  (forall d d' gr s b G c st, MKZ_set d gr s b G -> MKZ_set d' gr s b (c * G) -> 0 < gr -> 0 < s -> 0 <= b -> 0 < G -> 0 < c -> strains st ->
     get_GGmax LMKZ d' st = get_GGmax LMKZ d st /\ get_damping LMKZ d' st = get_damping LMKZ d st) /\
  (forall d d' gt a gr b s G mu T dd c st, HH_set d gt a gr b s G mu T dd -> HH_set d' gt a gr b s (c * G) mu (c * T) dd ->
     0 < gt -> 0 < gr -> 0 < s -> 0 <= b -> 0 < G -> 0 < mu -> 0 < T -> 0 < dd -> 0 < c -> strains st ->
     get_GGmax LHH d' st = get_GGmax LHH d st /\ get_damping LHH d' st = get_damping LHH d st).
Proof.
  assert (SM : forall gr s b G c x, mkz_stress gr s b (c * G) x = c * mkz_stress gr s b G x) by (intros; unfold mkz_stress, Rdiv; ring).
  split.
  - intros d d' gr s b G c st HD HD' Hgr Hs Hb HG Hc HS. assert (HcG : 0 < c * G) by (apply Rmult_lt_0_compat; auto).
    destruct (C121_MKZ d gr s b G st HD Hgr Hs Hb HG HS) as (_ & -> & ->). destruct (C121_MKZ d' gr s b (c * G) st HD' Hgr Hs Hb HcG HS) as (_ & -> & ->).
    split; [reflexivity|]. do 3 f_equal. symmetry. rewrite <- (masing_curve_scale c) by lra. f_equal. rewrite map_map. apply map_ext. intros x. symmetry. apply SM.
  - intros d d' gt a gr b s G mu T dd c st HD HD' Hgt Hgr Hs Hb HG Hm HT Hd Hc HS. assert (HcG : 0 < c * G) by (apply Rmult_lt_0_compat; auto). assert (HcT : 0 < c * T) by (apply Rmult_lt_0_compat; auto).
    assert (SH : forall x, hh_stress gt a gr b s (c * G) mu (c * T) dd x = c * hh_stress gt a gr b s G mu T dd x).
    { intros x. unfold hh_stress. rewrite SM. unfold fkz_stress. replace (c * G / (c * T)) with (G / T) by (field; lra). unfold Rdiv. ring. }
    destruct (C121_HH d gt a gr b s G mu T dd st HD Hgt Hgr Hs Hb HG Hm HT Hd HS) as (_ & -> & ->).
    destruct (C121_HH d' gt a gr b s (c * G) mu (c * T) dd st HD' Hgt Hgr Hs Hb HcG Hm HcT Hd HS) as (_ & -> & ->). split.
    + do 2 f_equal. apply map_ext_in. intros x Hx. rewrite SH. pose proof (proj1 (Forall_forall _ _) (hundredth_pos _ (proj2 HS)) x Hx) as Px. cbn in Px. field. lra.
    + do 3 f_equal. symmetry. rewrite <- (masing_curve_scale c) by lra. f_equal. rewrite map_map. apply map_ext. intros x. symmetry. apply SH.
Qed.

(** ** Range *)
Lemma increasing_hundredth st : increasing0 st -> increasing0 (hundredth st).
Proof.
  intros H k Hk. unfold hundredth in *. rewrite map_length in Hk. specialize (H k Hk).
  assert (E : forall i, nth i (map (fun x => x / 100) st) 0 = nth i st 0 / 100).
  { intros i. replace 0 with (0 / 100) at 1 by lra. apply (map_nth (fun x => x / 100)). }
  rewrite !E. destruct (Nat.eqb k 0); lra.
Qed.
Lemma increasing_strains st : increasing0 st -> st <> [] -> strains st.
Proof.
  intros H Hne. split; [exact Hne|]. apply Forall_forall. intros x Hx. apply (In_nth _ _ 0) in Hx as (k & Hk & <-). apply increasing0_pos; auto.
Qed.

(** MKZ with an exponent of at most 1, strains that increase: ratios between 0 and 1 that never increase, dampings between 0 and
    200 / pi percent. *)
Theorem C121_MKZ_range : forall d gr s b G st, MKZ_set d gr s b G -> 0 < gr -> 0 < s <= 1 -> 0 <= b -> 0 < G -> st <> [] -> increasing0 st ->
  exists gg xi, numeric (get_GGmax LMKZ d st) gg /\ numeric (get_damping LMKZ d st) xi /\
    List.length gg = List.length st /\ List.length xi = List.length st /\
    Forall (fun v => 0 < v <= 1) gg /\ (forall i, (S i < List.length gg)%nat -> nth (S i) gg 0 <= nth i gg 0) /\
    Forall (fun v => 0 <= v <= 200 / PI) xi /\ nth 0 xi 0 = 0.
Proof.
  intros d gr s b G st HD Hgr Hs Hb HG Hne HI. pose proof (increasing_strains st HI Hne) as HS. pose proof (increasing_hundredth st HI) as HH.
  destruct (C121_MKZ d gr s b G st HD Hgr ltac:(lra) Hb HG HS) as (_ & EG & EX). eexists. eexists. split; [exact EG|]. split; [exact EX|].
  assert (Lh : List.length (hundredth st) = List.length st) by (unfold hundredth; apply map_length).
  split; [rewrite map_length; exact Lh|]. split; [rewrite map_length, masing_curve_length; exact Lh|].
  assert (HP := hundredth_pos _ (proj2 HS)).
  set (f := fun x : R => / (1 + b * Rpower (x / gr) s)).
  assert (Pp : forall x, 0 < Rpower x s) by (intros; apply exp_pos).
  assert (Q : forall x, 0 < f x <= 1).
  { intros x. unfold f. specialize (Pp (x / gr)). split; [apply Rinv_0_lt_compat; nra|]. rewrite <- Rinv_1. apply Rinv_le_contravar; nra. }
  split; [apply Forall_map, Forall_forall; intros x _; apply Q|]. split; [|].
  { intros i Hi. rewrite map_length in Hi. rewrite (nth_indep _ 0 (f 0)) by (rewrite map_length; exact Hi). rewrite (nth_indep (map f _) 0 (f 0)) by (rewrite map_length; lia). rewrite !map_nth.
    pose proof (increasing0_pos _ HH i ltac:(lia)) as P1. pose proof (HH (S i) Hi) as P2. cbn [Nat.eqb] in P2. replace (S i - 1)%nat with i in P2 by lia.
    unfold f. set (u := nth i (hundredth st) 0) in *. set (v := nth (S i) (hundredth st) 0) in *. pose proof (Pp (u / gr)). pose proof (Pp (v / gr)).
    apply Rinv_le_contravar; [nra|]. apply Rplus_le_compat_l, Rmult_le_compat_l; [exact Hb|]. apply Rle_Rpower_l; [lra|]. split; [apply Rdiv_lt_0_compat; auto|]. apply Rmult_le_compat_r; [apply Rlt_le, Rinv_0_lt_compat; auto|lra]. }
  set (ts := map (mkz_stress gr s b G) (hundredth st)).
  assert (ET : map (tau_MKZ gr b s G) (hundredth st) = map Fin ts) by (apply map_fin_ext; [exact HP|]; intros; apply mkz_stress_val; lra).
  assert (Hh : hundredth st <> []) by (destruct st; [congruence|discriminate]).
  destruct (C45_MKZ_damping gr b s G (hundredth st) ts Hgr Hb Hs HG HH Hh ET) as (ds & E & HB & _).
  assert (N1 : nonzero (hundredth st)) by (eapply Forall_impl; [|exact HP]; cbn; intros; lra).
  assert (Pt : Forall (fun t => 0 < t) ts) by (apply Forall_map; eapply Forall_impl; [|exact HP]; cbn; intros; apply mkz_stress_pos; auto).
  assert (N2 : nonzero ts) by (eapply Forall_impl; [|exact Pt]; cbn; intros; lra).
  destruct (C45_damping_curve (hundredth st) ts G ltac:(unfold ts; rewrite map_length; reflexivity) Hh ltac:(lra) N1 N2) as (ds' & E' & Ld & Hd & H0 & _). rewrite E in E'. injection E' as <-.
  assert (Eds : masing_curve (hundredth st) ts = ds).
  { apply (nth_ext _ _ 0 0); [rewrite masing_curve_length; auto|]. intros k Hk. rewrite masing_curve_length in Hk. rewrite Hd, masing_curve_nth by exact Hk. reflexivity. }
  rewrite Eds. split; [|destruct ds as [|x ds]; [reflexivity|cbn in H0 |- *; rewrite H0; lra]].
  apply Forall_map. eapply Forall_impl; [|exact HB]. cbn. intros x Hx. unfold Rdiv in *. lra.
Qed.

(** ** When there are no curves *)
(** A foreign name, which an in-place union lets in (see C40), makes every curve impossible. *)
Theorem C121_foreign_name : forall m d st, (exists k, In k (map fst d) /\ ~ In k (law_keys m)) \/ (exists k, In k (law_keys m) /\ ~ In k (map fst d)) ->
  get_stress m d st = Err TypeError /\ get_GGmax m d st = Err TypeError /\ get_damping m d st = Err TypeError /\
  forall c, plot_curves m d c = (c, Err TypeError).
Proof.
  intros m d st H. assert (E : same_keys d (law_keys m) = false).
  { destruct (same_keys d (law_keys m)) eqn:E; [|reflexivity]. exfalso. apply same_keys_iff in E. unfold set_eq, keys in E.
    destruct H as [(k & A & B)|(k & A & B)]; apply B, E, A. }
  assert (F : forall l, func_stress m d l = Err TypeError) by (intros l; unfold func_stress; rewrite E; reflexivity).
  unfold get_GGmax, get_damping, get_stress, plot_curves, and_then, lift. unfold get_GGmax, get_stress. rewrite !F. repeat split.
Qed.

(** Strains that begin with zero have stresses but neither ratios nor dampings. *)
Theorem C121_zero_strain : forall m d st l, get_stress m d (0 :: st) = Ok l ->
  get_GGmax m d (0 :: st) = Err ValueError /\ get_damping m d (0 :: st) = Err ValueError.
Proof.
  intros m d st l E. unfold get_GGmax, get_damping. unfold get_stress in *. rewrite E. cbn [bind unit1 map]. unfold get. cbn [nth_error bind].
  replace (0 / 100) with 0 by lra. rewrite (proj2 (Reqb_true 0 0)) by reflexivity. split; reflexivity.
Qed.
Theorem C121_no_strain : forall m d l, get_stress m d [] = Ok l -> get_GGmax m d [] = Err IndexError /\ get_damping m d [] = Err IndexError.
Proof. intros m d l E. unfold get_GGmax, get_damping. unfold get_stress in *. rewrite E. split; reflexivity. Qed.

(** A transition strain that is not positive is refused. *)
Theorem C121_HH_transition : forall d gt a gr b s G mu T dd st, HH_set d gt a gr b s G mu T dd -> gt <= 0 ->
  get_stress LHH d st = Err AssertionError /\ get_GGmax LHH d st = Err AssertionError /\ get_damping LHH d st = Err AssertionError /\
  forall c, plot_curves LHH d c = (c, Err AssertionError).
Proof.
  intros d gt a gr b s G mu T dd st HD H.
  assert (F : forall l, func_stress LHH d l = Err AssertionError).
  { intros l. unfold func_stress. rewrite (consists_keys _ _ LHH HD) by (left; reflexivity). rewrite (consists_get _ _ "gamma_t" gt HD) by (cbn; tauto).
    unfold tau_HH, transition_function. rewrite (proj2 (Rltb_false 0 gt)) by exact H. reflexivity. }
  unfold get_GGmax, get_damping, get_stress, plot_curves, and_then, lift. unfold get_GGmax, get_stress. rewrite !F. repeat split.
Qed.

(** ** A damping is not a function of its strain *)
(** The first damping is zero whatever the strain: the area below the first point is that of a triangle. *)
Theorem C121_first_damping : forall d gr s b G x st, MKZ_set d gr s b G -> 0 < gr -> 0 < s -> 0 <= b -> 0 < G -> strains (x :: st) ->
  exists xi, numeric (get_damping LMKZ d (x :: st)) (0 :: xi).
Proof.
  intros d gr s b G x st HD Hgr Hs Hb HG HS. destruct (C121_MKZ d gr s b G _ HD Hgr Hs Hb HG HS) as (_ & _ & E).
  pose proof (Forall_inv (proj2 HS)) as Hx. cbn in Hx. pose proof (mkz_stress_pos gr s b G (x / 100) Hb HG ltac:(lra)) as Ht.
  set (es := hundredth (x :: st)) in *. set (ts := map (mkz_stress gr s b G) es) in *. exists (tl (map (fun x => x * 100) (masing_curve es ts))). unfold numeric. rewrite E. do 2 f_equal.
  assert (H0 : Rmax (masing es ts 0) 0 * 100 = 0); [|unfold masing_curve; cbn [es hundredth map List.length seq tl]; f_equal; exact H0].
  unfold masing, ts, es. cbn [hundredth map combine area_to nth]. set (t := mkz_stress gr s b G (x / 100)) in *.
  replace (2 / PI * _) with 0; [rewrite Rmax_left by lra; lra|]. field. split; [lra|]. split; [lra|apply PI_neq0].
Qed.
(** So the same strain has no damping alone and some damping behind another strain. *)
Theorem C121_damping_alone_refuted : exists d x y a b, MKZ_set d 1 1 1 1 /\ 0 < x < y /\
  numeric (get_damping LMKZ d [y]) [a] /\ numeric (get_damping LMKZ d [x; y]) [0; b] /\ a < b.
Proof.
  set (d := [("gamma_ref", 1); ("s", 1); ("beta", 1); ("Gmax", 1)]). assert (HD : MKZ_set d 1 1 1 1).
  { split; [intros k; reflexivity|]. intros k v HI. cbn in HI. destruct HI as [X|[X|[X|[X|[]]]]]; injection X as <- <-; reflexivity. }
  assert (S1 : strains [300]) by (split; [discriminate|]; constructor; [lra|constructor]).
  assert (S2 : strains [100; 300]) by (split; [discriminate|]; constructor; [lra|constructor; [lra|constructor]]).
  destruct (C121_first_damping d 1 1 1 1 300 [] HD) as (xi & E1); try lra; [exact S1|].
  destruct (C121_first_damping d 1 1 1 1 100 [300] HD) as (xj & E2); try lra; [exact S2|].
  destruct (C121_MKZ d 1 1 1 1 [300] HD) as (_ & _ & F1); try lra; [exact S1|].
  destruct (C121_MKZ d 1 1 1 1 [100; 300] HD) as (_ & _ & F2); try lra; [exact S2|].
  assert (Z1 : xi = []). { unfold numeric in *. rewrite E1 in F1. apply (f_equal (fun r => match r with Ok l => List.length l | _ => 0%nat end)) in F1. cbn in F1. rewrite map_length in F1. destruct xi; [reflexivity|discriminate]. }
  subst xi. set (v := nth 1 (map (fun x => x * 100) (masing_curve (hundredth [100; 300]) (map (mkz_stress 1 1 1 1) (hundredth [100; 300])))) 0).
  assert (Z2 : xj = [v]).
  { unfold numeric in *. rewrite E2 in F2. injection F2 as _ F2. assert (I : map Fin xj = [Fin v]) by exact F2.
    destruct xj as [|w [|]]; cbn [map] in I; try discriminate I. injection I as ->. reflexivity. }
  subst xj. exists d, 100, 300, 0, v. split; [exact HD|]. split; [lra|]. split; [exact E1|]. split; [exact E2|].
  unfold v. assert (I : nth 1 (map (fun x => x * 100) (masing_curve (hundredth [100; 300]) (map (mkz_stress 1 1 1 1) (hundredth [100; 300])))) 0 = Rmax (masing (hundredth [100; 300]) (map (mkz_stress 1 1 1 1) (hundredth [100; 300])) 1) 0 * 100) by reflexivity.
  rewrite I. assert (0 < masing (hundredth [100; 300]) (map (mkz_stress 1 1 1 1) (hundredth [100; 300])) 1); [|rewrite Rmax_left by lra; lra].
  unfold masing. cbn [hundredth map combine area_to nth]. unfold mkz_stress.
  rewrite !Rpower_1 by lra. match goal with |- 0 < 2 / PI * ?e => replace e with (1 / 3) by field end. pose proof PI_RGT_0. apply Rmult_lt_0_compat; [apply Rdiv_lt_0_compat; lra|lra].
Qed.

(** ** The figure *)
Lemma plot_strain_length : List.length plot_strain = 50%nat.
Proof. unfold plot_strain, logspace. rewrite map_length, linspace_length. reflexivity. Qed.
Lemma plot_strain_pos : strains plot_strain.
Proof.
  split; [intros E; pose proof plot_strain_length as L; rewrite E in L; discriminate|].
  unfold plot_strain, logspace. apply Forall_map, Forall_forall. intros. apply exp_pos.
Qed.

(** Both curves at 50 strains between 0.0001 and 10 percent: the ratios on the first, the dampings on the second
    of two new axes of a new figure; what was there before is left alone. *)
Theorem C121_figure : forall m d n l gg xi, numeric (get_GGmax m d plot_strain) gg -> numeric (get_damping m d plot_strain) xi ->
  List.length gg = 50%nat -> List.length xi = 50%nat ->
  plot_curves m d (mkcanvas n l) =
  (mkcanvas (S n) (l ++ [mkaxes n [mkline plot_strain gg None] [] None (Some "G/Gmax") None None true;
                         mkaxes n [mkline plot_strain xi None] [] None (Some "Damping [%]") None None true]),
   Ok (n, (List.length l, S (List.length l)))).
Proof.
  intros m d n l gg xi EG EX LG LX. unfold numeric in *. unfold plot_curves, and_then at 1, lift at 1. rewrite EG. unfold and_then at 1, lift at 1. rewrite EX.
  unfold and_then at 1, new_figure. cbn [cv_figs cv_axes]. unfold numbers, finite_x. rewrite !fins_map.
  rewrite run_sub, run_draw by (rewrite ?plot_strain_length; auto). rewrite run_ylabel by reflexivity. rewrite run_sub.
  rewrite run_draw by (rewrite ?plot_strain_length; auto). rewrite run_ylabel by reflexivity. unfold done.
  rewrite app_length. cbn [List.length]. rewrite Nat.add_1_r, <- app_assoc. reflexivity.
Qed.
(** The abscissae: ends and constant ratio. *)
Theorem C121_figure_strains : List.length plot_strain = 50%nat /\ nth 0 plot_strain 0 = 1 / 10000 /\ nth 49 plot_strain 0 = 10 /\
  forall i, (S i < 50)%nat -> nth (S i) plot_strain 0 = nth i plot_strain 0 * Rpower 10 (5 / 49).
Proof.
  assert (N : forall i, (i < 50)%nat -> nth i plot_strain 0 = Rpower 10 (-4 + INR i * (5 / 49))).
  { intros i Hi. unfold plot_strain, logspace. rewrite (nth_indep _ 0 (Rpower 10 0)) by (rewrite map_length, linspace_length; exact Hi). rewrite map_nth. f_equal.
    rewrite linspace_nth by lia. cbn [Nat.sub]. replace (INR 49) with 49 by (cbn; lra). field. }
  split; [apply plot_strain_length|]. split; [|split].
  - rewrite N by lia. cbn [INR]. replace (-4 + 0 * (5 / 49)) with (- INR 4) by (cbn; lra). rewrite Rpower_Ropp, Rpower_pow by lra. cbn. lra.
  - rewrite N by lia. replace (INR 49) with 49 by (cbn; lra). replace (-4 + 49 * (5 / 49)) with 1 by lra. apply Rpower_1. lra.
  - intros i Hi. rewrite !N by lia. rewrite <- Rpower_plus. f_equal. rewrite S_INR. lra.
Qed.
(** The figure of every MKZ set with positive parameters. *)
Theorem C121_figure_MKZ : forall d gr s b G c, MKZ_set d gr s b G -> 0 < gr -> 0 < s -> 0 <= b -> 0 < G ->
  exists c' f a a' gg xi, plot_curves LMKZ d c = (c', Ok (f, (a, a'))) /\ f = cv_figs c /\ cv_figs c' = S f /\
    firstn (List.length (cv_axes c)) (cv_axes c') = cv_axes c /\ a <> a' /\
    (exists s1 s2, nth_error (cv_axes c') a = Some s1 /\ nth_error (cv_axes c') a' = Some s2 /\ ax_fig s1 = f /\ ax_fig s2 = f /\
       ax_lines s1 = [mkline plot_strain gg None] /\ ax_lines s2 = [mkline plot_strain xi None]) /\
    gg = map (fun x => / (1 + b * Rpower (x / 100 / gr) s)) plot_strain /\
    xi = map (fun x => x * 100) (masing_curve (hundredth plot_strain) (map (mkz_stress gr s b G) (hundredth plot_strain))).
Proof.
  intros d gr s b G [n l] HD Hgr Hs Hb HG. destruct (C121_MKZ d gr s b G plot_strain HD Hgr Hs Hb HG plot_strain_pos) as (_ & EG & EX).
  unfold hundredth in EG at 1. rewrite map_map in EG.
  pose proof (C121_figure LMKZ d n l _ _ EG EX ltac:(rewrite map_length; apply plot_strain_length) ltac:(rewrite map_length, masing_curve_length; unfold hundredth; rewrite map_length; apply plot_strain_length)) as F.
  do 6 eexists. split; [exact F|]. cbn [cv_figs cv_axes]. split; [reflexivity|]. split; [reflexivity|]. split; [rewrite firstn_app, firstn_all, Nat.sub_diag; cbn [firstn]; apply app_nil_r|].
  split; [lia|]. split; [|split; reflexivity].
  do 2 eexists. split; [rewrite nth_error_app2 by lia; rewrite Nat.sub_diag; reflexivity|].
  split; [rewrite nth_error_app2 by lia; replace (S (List.length l) - List.length l)%nat with 1%nat by lia; reflexivity|]. repeat split.
Qed.

(** ** Instances *)
Definition demo_MKZ : dict := [("Gmax", 60000000); ("beta", 1); ("gamma_ref", 1 / 1000); ("s", 9 / 10)].
Example C121_instance : MKZ_set demo_MKZ (1 / 1000) (9 / 10) 1 60000000 /\
  numeric (get_GGmax LMKZ demo_MKZ [1 / 10]) [1 / 2] /\ get_GGmax LMKZ demo_MKZ [0; 1] = Err ValueError /\
  get_GGmax LMKZ (dmerge demo_MKZ [("mu", 1)]) [1] = Err TypeError.
Proof.
  assert (HD : MKZ_set demo_MKZ (1 / 1000) (9 / 10) 1 60000000).
  { split; [intros k; cbn; tauto|]. intros k v HI. cbn in HI. destruct HI as [X|[X|[X|[X|[]]]]]; injection X as <- <-; reflexivity. }
  split; [exact HD|].
  assert (S1 : strains [1 / 10]) by (split; [discriminate|]; constructor; [lra|constructor]).
  split; [|split].
  - destruct (C121_MKZ demo_MKZ (1 / 1000) (9 / 10) 1 60000000 [1 / 10] HD) as (_ & E & _); try lra; [exact S1|]. unfold numeric in *. rewrite E. cbn [hundredth map]. do 4 f_equal.
    replace (1 / 10 / 100 / (1 / 1000)) with 1 by lra. unfold Rpower. rewrite ln_1, Rmult_0_r, exp_0. lra.
  - eapply (C121_zero_strain LMKZ demo_MKZ [1]). unfold get_stress, func_stress. reflexivity.
  - apply C121_foreign_name. left. exists "mu". split; [cbn; tauto|]. cbn. intros [X|[X|[X|[X|[]]]]]; discriminate.
Qed.
