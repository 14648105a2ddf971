(** C55, C60: shapes, errors and limits of the equivalent-linear simulation, and the
    layer-count check. *)
From Coq Require Import Reals List Bool ZArith Lia Lra Psatz.
From Coquelicot Require Import Coquelicot.
From Coq Require Import List.
From Verif Require Import Base M_generic P_generic M_profile P_profile Prop_profile M_vs_profile P_vs_profile M_motion M_interp P_interp M_dft P_dft M_spectra P_spectra M_linear P_linear Prop_linear M_simlin P_simlin Prop_simlin Prop_simkin M_eqlin P_eqlin Prop_eqlin.
Import ListNotations.
Open Scope R_scope.

(** ** Shapes *)
Theorem C55_shapes : forall t s cm b tol Rg max_iter vb r, table_wf t -> cmat_wf cm -> equiv_linear t s cm b tol Rg max_iter vb = Ok r -> shaped s r.
Proof.
  intros t s cm b tol Rg max_iter vb r Wf Wc E.
  assert (AC : eq_acceptable t s cm b max_iter) by (apply (C55_accepts_iff t s cm b tol Rg max_iter vb Wf Wc); eauto).
  destruct (eq_run t s cm b tol Rg max_iter vb Wc AC) as (dt & p & cs & m & ED & ES & RN & P2 & ECS & Hm & EQ & _). rewrite E in EQ. injection EQ as ->.
  destruct AC as ((V & C5 & L & _) & _ & _ & Hn & _). pose proof (tr_length t s cm b Rg p cs dt C5 RN P2 ECS Hn) as TL. cbv beta in TL.
  set (st := traj p cs b dt (run_A s) Rg (m - 1) (initial p)). set (st' := traj p cs b dt (run_A s) Rg m (initial p)).
  assert (Ls : length st = length p) by apply TL. assert (Ls' : length st' = length p) by apply TL. clearbody st st'.
  destruct (run_N_spec s L) as (O & EN & N3). cbv beta delta [shaped]. intros n T.
  assert (En : n = length p) by (unfold n, eq_outcome; cbn [sr_profile]; unfold set_damping; rewrite map_length, combine_length; lia). clearbody n.
  cbn [sr_profile sr_a sr_v sr_d sr_gamma sr_tau sr_freq sr_tf sr_surface sr_max_avd sr_max_gt eq_outcome] in *.
  assert (L0 : length (nth 0 (map (fun k => trim (Nat.even (length s)) (acc_of (run_N s) dt (elays p st) b (run_A s) k)) (seq 0 (length p))) []) = T).
  { rewrite nth_seq_map by lia. apply trim_length; [exact L|]. apply acc_length, L. }
  split; [|split; [|split; [|split]]].
  - split; [|split]; [|reflexivity|].
    + unfold times at 1. assert (EF : forall (l : list R) (l' : list R), length l = length l' -> map fst (combine l l') = l).
      { induction l as [|x l IH]; intros [|y l'] H; cbn in *; try lia; try reflexivity. f_equal. apply IH. lia. }
      apply EF. rewrite times_length. symmetry. exact L0.
    + rewrite combine_length, times_length. rewrite L0. apply Nat.min_id.
  - rewrite !combine_length, z_top_length, !map_length, !seq_length. repeat split; lia.
  - rewrite !combine_length, removelast_length, z_mid_length, !map_length, !seq_length. repeat split; lia.
  - repeat (apply Forall_app; split); apply Forall_map; apply Forall_forall; intros k _; apply trim_length; try exact L.
    + apply acc_length, L. + rewrite integrate_length. apply acc_length, L. + apply dis_length, L. + apply gam_length, L.
    + rewrite stress_length; rewrite gam_length by exact L; [reflexivity|exact O].
  - destruct (outcome_freq_length s p dt b L) as [Q1 _]. cbn [sr_freq outcome] in Q1. split; [exact Q1|]. unfold T. rewrite <- Q1. rewrite map_length, !firstn_length, map_length, seq_length, H_col_length by exact O. reflexivity.
Qed.

(** ** Errors *)
Lemma eq_unfold t s cm b tol Rg max_iter vb dt p : valid_table t -> t_ncol t = 5%nat -> first_step s = Ok dt -> stratify (map row_of (t_rows t)) = Ok p ->
  equiv_linear t s cm b tol Rg max_iter vb =
    let! cs := map_res (layer_curve cm) (removelast p) in
    if (max_iter <? -1)%Z then Err ValueError
    else if (max_iter =? -1)%Z then Err IndexError
    else
      let inp := mkinputs (Nat.even (length s)) p (pad_time (times s) dt) dt (run_A s) in
      let! (m, r) := iterate inp cs b Rg tol vb (Z.to_nat max_iter) (initial p) None in
      post inp (set_damping p m) (length (run_A s)) r (calc_stress (elays p m) (rs_gamma r)).
Proof.
  intros V C5 ED ES. unfold equiv_linear. rewrite (check_table_complete t V). unfold prepare_inputs. rewrite ED, ES. cbn [bind]. rewrite C5. cbn [Nat.eqb bind in_A in_profile in_dt].
  rewrite incident_padded. reflexivity.
Qed.

(** Arguments the linear simulation would accept. *)
Theorem C55_errors : forall t s cm b tol Rg max_iter vb,
  (forall e, check_Vs_profile_format (as_pyobj t) = Err e -> equiv_linear t s cm b tol Rg max_iter vb = Err e) /\
  (acceptable t s b -> cmat_wf cm ->
    let mats z := exists x, In x (removelast (t_rows t)) /\ cell 4 x = IZR z in
    let enough := forall z, mats z -> (4 * Z.to_nat z <= length (cm_cols cm))%nat /\ (1 <= cm_n cm)%nat in
    (~ enough -> equiv_linear t s cm b tol Rg max_iter vb = Err IndexError) /\
    (enough -> (max_iter < -1)%Z -> equiv_linear t s cm b tol Rg max_iter vb = Err ValueError) /\
    (enough -> max_iter = (-1)%Z -> equiv_linear t s cm b tol Rg max_iter vb = Err IndexError) /\
    (enough -> max_iter = 0%Z -> equiv_linear t s cm b tol Rg max_iter vb = Err UnboundLocalError) /\
    (length (t_rows t) = 1%nat -> (1 <= max_iter)%Z -> equiv_linear t s cm b tol Rg max_iter vb = Err ValueError)).
Proof.
  intros t s cm b tol Rg max_iter vb. split; [intros e E; unfold equiv_linear; rewrite E; reflexivity|].
  intros (V & C5 & L & init & lst & Er & Z & HB) Wc mats enough.
  destruct (proj2 (first_step_ok s) L) as (dt & ED).
  destruct (strat_ok t V C5) as (init' & lst' & p & Er' & ES & Cl & So & Len & pi & pl & EP & FH & HZ & H0).
  rewrite Er in Er'. apply app_inj_tail in Er' as [<- <-]. specialize (H0 Z).
  destruct (strat_materials t p init lst V C5 Er Z ES) as [SM1 SM2]. rewrite (eq_unfold t s cm b tol Rg max_iter vb dt p V C5 ED ES).
  assert (MT : forall z, mats z <-> exists x, In x init /\ cell 4 x = IZR z) by (intros z; unfold mats; rewrite Er, removelast_last; reflexivity).
  assert (LC : forall r, In r (removelast p) -> exists z, mats z /\ (0 < z)%Z /\ material r = IZR z).
  { intros r I. destruct (SM1 r I) as (x & Ix & Ex). destruct (table_materials t init lst x V C5 Er Ix) as (z & E4 & Hz & E2). exists z. split; [apply MT; eauto|]. split; [exact Hz|]. unfold material. rewrite Ex. exact E2. }
  assert (OKC : enough -> exists cs, map_res (layer_curve cm) (removelast p) = Ok cs).
  { intros EN. apply map_res_all. intros r I. destruct (LC r I) as (z & Mz & Hz & Em). destruct (EN z Mz) as [E1 E2]. pose proof (layer_curve_ok cm r z Wc Hz Em E1 E2) as LO.
    destruct (columns cm (Z.to_nat z)) as [[sG g] [sD d]]. destruct LO as [LO _]. eauto. }
  split; [|split; [|split; [|split]]].
  - intros NE. rewrite (map_res_err _ _ IndexError); [reflexivity| |].
    + intros r I. destruct (LC r I) as (z & Mz & Hz & Em).
      destruct (Nat.le_gt_cases (4 * Z.to_nat z) (length (cm_cols cm))) as [H1|H1]; [|rewrite (layer_curve_err cm r z Hz Em) by (left; exact H1); reflexivity].
      destruct (Nat.le_gt_cases 1 (cm_n cm)) as [H2|H2]; [|rewrite (layer_curve_err cm r z Hz Em) by (right; split; [exact Wc|lia]); reflexivity].
      pose proof (layer_curve_ok cm r z Wc Hz Em H1 H2) as LO. destruct (columns cm (Z.to_nat z)) as [[sG g] [sD d]]. destruct LO as [-> _]. exact Logic.I.
    + destruct (List.Forall_dec (fun r => is_ok (layer_curve cm r) = true) (fun r => Bool.bool_dec _ _) (removelast p)) as [F|F].
      * exfalso. apply NE. intros z Mz. apply MT in Mz as (x & Ix & E4). destruct (SM2 x Ix) as (r & Ir & Ex). rewrite Forall_forall in F. specialize (F r Ir).
        destruct (table_materials t init lst x V C5 Er Ix) as (z' & E4' & Hz & E2). rewrite E4 in E4'. apply eq_IZR in E4'. subst z'.
        assert (Em : material r = IZR z) by (unfold material; rewrite Ex; exact E2). split.
        -- destruct (Nat.le_gt_cases (4 * Z.to_nat z) (length (cm_cols cm))) as [H|H]; [exact H|]. rewrite (layer_curve_err cm r z Hz Em) in F by (left; exact H). discriminate.
        -- destruct (Nat.le_gt_cases 1 (cm_n cm)) as [H|H]; [exact H|]. rewrite (layer_curve_err cm r z Hz Em) in F by (right; split; [exact Wc|lia]). discriminate.
      * apply neg_Forall_Exists_neg in F; [|intros r; apply Bool.bool_dec]. apply Exists_exists in F as (r & Ir & Hr). exists r. split; [exact Ir|]. destruct (LC r Ir) as (z & Mz & Hz & Em).
        destruct (Nat.le_gt_cases (4 * Z.to_nat z) (length (cm_cols cm))) as [H1|H1]; [|apply (layer_curve_err cm r z Hz Em); left; exact H1].
        destruct (Nat.le_gt_cases 1 (cm_n cm)) as [H2|H2]; [|apply (layer_curve_err cm r z Hz Em); right; split; [exact Wc|lia]].
        pose proof (layer_curve_ok cm r z Wc Hz Em H1 H2) as LO. destruct (columns cm (Z.to_nat z)) as [[sG g] [sD d]]. destruct LO as [LO _]. rewrite LO in Hr. exfalso. apply Hr. reflexivity.
  - intros EN HM. destruct (OKC EN) as (cs & ->). cbn [bind]. rewrite (proj2 (Z.ltb_lt _ _) HM). reflexivity.
  - intros EN ->. destruct (OKC EN) as (cs & ->). reflexivity.
  - intros EN ->. destruct (OKC EN) as (cs & ->). reflexivity.
  - intros L1 HM. assert (EI : init = []) by (rewrite Er, app_length in L1; cbn [length] in L1; destruct init; [reflexivity|cbn in L1; lia]).
    assert (LP : length p = 1%nat) by (rewrite EP, app_length, (proj2 H0 EI); reflexivity).
    assert (EB : b = Rigid -> (2 <= length p)%nat) by (intros Eb; exfalso; apply (HB Eb); exact EI).
    assert (RP : removelast p = []) by (destruct p as [|x [|y p']]; try discriminate; reflexivity). rewrite RP. cbn [map_res bind].
    replace (max_iter <? -1)%Z with false by (symmetry; apply Z.ltb_ge; lia). replace (max_iter =? -1)%Z with false by (symmetry; apply Z.eqb_neq; lia).
    rewrite (iterate_single p [] b (Nat.even (length s)) (pad_time (times s) dt) dt (run_A s) Rg); [reflexivity| | | | | |]; try assumption.
    + intros E; rewrite E in LP; discriminate.
    + rewrite LP. reflexivity.
    + rewrite initial_length. exact LP.
    + lia.
Qed.

(** ** When nothing changes *)
Lemma unmoved t s cm b tol Rg max_iter vb dt p : cmat_wf cm -> eq_acceptable t s cm b max_iter -> good_curves t cm -> first_step s = Ok dt -> stratify (map row_of (t_rows t)) = Ok p ->
  (forall k gd, (S k < length p)%nat -> curve_point cm (nth k p row0) (Rg * max_abs (gam_of (run_N s) dt (map elay_of p) b (run_A s) k)) gd -> gd = (Gmax (nth k p row0), xi0 (nth k p row0))) ->
  equiv_linear t s cm b tol Rg max_iter vb = Ok (outcome s p dt b).
Proof.
  intros Wc AC GCv ED ES UM. destruct (eq_run t s cm b tol Rg max_iter vb Wc AC) as (dt' & p' & cs & m & ED' & ES' & RN & P2 & ECS & Hm & EQ & _). rewrite ED in ED'. injection ED' as <-. rewrite ES in ES'. injection ES' as <-.
  destruct AC as ((V & C5 & L & init & lst & Er & Z & HB) & _ & _ & Hn & HC). unfold good_curves in GCv. rewrite Er, removelast_last in HC, GCv.
  pose proof RN as (_ & _ & So & _ & _).
  assert (FP : next_st p cs b dt (run_A s) Rg (initial p) = initial p).
  { unfold next_st. apply (nth_ext _ _ (0, 0) (0, 0)); [rewrite app_length, map_length, seq_length, initial_length; cbn [length]; lia|].
    intros k Hk. rewrite app_length, map_length, seq_length in Hk. cbn [length] in Hk.
    assert (IN : forall j, (j < length p)%nat -> nth j (initial p) (0, 0) = (Gmax (nth j p row0), xi0 (nth j p row0))) by (intros j Hj; unfold initial; rewrite (map_nth' _ p j row0) by exact Hj; reflexivity).
    destruct (Nat.lt_ge_cases k (length p - 1)) as [H|H].
    - rewrite app_nth1 by (rewrite map_length, seq_length; exact H). rewrite nth_seq_map by exact H. rewrite IN by lia. apply UM; [lia|].
      destruct (renewed_point t s cm b Rg p cs dt Wc V C5 init lst Er Z ES RN P2 ECS Hn HC GCv (initial p) k ltac:(lia)) as [CP _]. unfold eff_of in CP. rewrite initial_elays, run_A_length in CP. exact CP.
    - assert (Ek : k = (length p - 1)%nat) by lia. rewrite app_nth2 by (rewrite map_length, seq_length; lia). rewrite map_length, seq_length, Ek, Nat.sub_diag. cbn [nth].
      rewrite <- (initial_length p). generalize (initial p). intros l. destruct l as [|x l] using rev_ind; [reflexivity|]. rewrite last_last, app_length. cbn [length]. rewrite app_nth2 by lia. replace (length l + 1 - 1 - length l)%nat with 0%nat by lia. reflexivity. }
  assert (TJ : forall j, traj p cs b dt (run_A s) Rg j (initial p) = initial p).
  { induction j as [|j IH]; [reflexivity|]. change (traj p cs b dt (run_A s) Rg (S j) (initial p)) with (next_st p cs b dt (run_A s) Rg (traj p cs b dt (run_A s) Rg j (initial p))). rewrite IH. exact FP. }
  rewrite EQ, !TJ. f_equal. unfold eq_outcome, outcome. rewrite initial_elays.
  assert (SD : set_damping p (initial p) = p).
  { unfold set_damping, initial. clear - So. induction So as [|r p [_ X] _ IH]; [reflexivity|]. cbn [map combine fst snd]. f_equal; [|exact IH].
    destruct r as [h v rest]. cbn [lay_of_row l_xi r_h r_vs r_rest elay_of e_D] in *. destruct rest as [|x rest]; [cbn in X; lra|]. reflexivity. }
  rewrite SD. unfold tau_of. reflexivity.
Qed.

Lemma gamma_of_padded s p dt b k : (2 <= length s)%nat -> (S k < length p)%nat ->
  nth k (sr_gamma (outcome (pad s dt) p dt b)) [] = gam_of (run_N s) dt (map elay_of p) b (run_A s) k.
Proof.
  intros L Hk. destruct (pad_padded s dt L) as (PD & PE & PL). cbn [sr_gamma outcome]. rewrite nth_seq_map by lia. rewrite PE. cbn [trim].
  unfold run_A, run_N. rewrite PD. reflexivity.
Qed.
Lemma pad_first_step s dt : (2 <= length s)%nat -> first_step s = Ok dt -> first_step (pad s dt) = Ok dt.
Proof. intros L E. unfold pad. destruct (Nat.even (length s)); [|exact E]. destruct s as [|[t0 a0] [|[t1 a1] s]]; cbn in L; try lia. exact E. Qed.

(** Flat curves give the linear response, whatever the number of iterations, as long as
    the scaled strains of the linear response to the completed record stay within the
    strains of the modulus curves. *)
Definition flat_until (cm : cmat) (m : nat) (e : R) : Prop :=
  let '((sG, g), (sD, d)) := columns cm m in Forall (eq 1) g /\ Forall (eq (hd 0 d)) d /\ e <= last sG 0 / 100.

Lemma pl_flat s y c e v ye : good_strains s -> length y = length s -> Forall (eq c) y -> s <> [] -> e <= last s 0 / 100 ->
  pl_value ((0, c) :: combine (map (fun v => v / 100) s) y ++ [(100, ye)]) e v -> v = c.
Proof.
  intros GS L FC NE He P. set (tb := (0, c) :: combine (map (fun v => v / 100) s) y ++ [(100, ye)]) in *.
  assert (LT : length tb = (length s + 2)%nat) by (unfold tb; cbn [length]; rewrite app_length, combine_length, map_length; cbn; lia).
  assert (N0 : forall k, (k <= length s)%nat -> snd (nth k tb (0, 0)) = c).
  { intros [|k] Hk; [reflexivity|]. unfold tb. cbn [nth]. rewrite app_nth1 by (rewrite combine_length, map_length; lia). rewrite combine_nth by (rewrite map_length; lia). cbn [snd]. rewrite Forall_forall in FC. symmetry. apply FC, nth_In. lia. }
  assert (NL : fst (nth (length s) tb (0, 0)) = last s 0 / 100).
  { destruct (exists_last NE) as (s' & x & Es). rewrite Es, last_last. unfold tb. rewrite Es, app_length. cbn [length]. rewrite Nat.add_1_r. cbn [nth].
    rewrite app_nth1 by (rewrite combine_length, map_length, L, Es, app_length; cbn; lia). rewrite combine_nth by (rewrite map_length, <- Es; lia). cbn [fst].
    rewrite map_app. cbn [map]. rewrite app_nth2 by (rewrite map_length; lia). rewrite map_length, Nat.sub_diag. reflexivity. }
  assert (NE' : nth (S (length s)) tb (0, 0) = (100, ye)).
  { unfold tb. cbn [nth]. rewrite app_nth2 by (rewrite combine_length, map_length; lia). rewrite combine_length, map_length, L, Nat.min_id, Nat.sub_diag. reflexivity. }
  assert (LL : 0 < last s 0 < 10000). { destruct GS as [F _]. destruct (exists_last NE) as (s' & x & Es). rewrite Es, last_last. rewrite Forall_forall in F. apply F. rewrite Es. apply in_or_app. right. left. reflexivity. }
  destruct P as [y0 x0 rest E H|k Hk H|k u Hk Hu Ex].
  - unfold tb in E. injection E as _ E _. symmetry. exact E.
  - rewrite LT in Hk. assert (k = S (length s)) by lia. subst k. rewrite NE' in H. cbn [fst] in H. lra.
  - rewrite LT in Hk. destruct (Nat.eq_dec k (length s)) as [->|Hne].
    + rewrite NL, NE' in Ex. cbn [fst] in Ex. assert (U0 : u = 0) by nra. subst u. rewrite N0 by lia. lra.
    + rewrite !N0 by lia. lra.
Qed.
Lemma pl_const s y c e v : good_strains s -> length y = length s -> Forall (eq c) y ->
  pl_value ((0, c) :: combine (map (fun v => v / 100) s) y ++ [(100, c)]) e v -> v = c.
Proof.
  intros GS L FC P. assert (B : c <= v <= c); [|lra]. eapply pl_bounds; [exact P|]. constructor; [cbn; lra|]. apply Forall_app. split; [|constructor; [cbn; lra|constructor]].
  apply Forall_forall. intros [u w] I. apply in_combine_r in I. rewrite Forall_forall in FC. specialize (FC w I). cbn [snd]. lra.
Qed.

Theorem C55_linear_limit : forall t s cm b tol Rg max_iter vb dt q q', table_wf t -> cmat_wf cm -> eq_acceptable t s cm b max_iter -> good_curves t cm ->
  first_step s = Ok dt -> linear t s b = Ok q -> linear t (pad s dt) b = Ok q' ->
  (forall k v z, (S k < length (sr_profile q'))%nat -> In v (nth k (sr_gamma q') []) -> material (nth k (sr_profile q') row0) = IZR z -> flat_until cm (Z.to_nat z) (Rg * Rabs v)) ->
  equiv_linear t s cm b tol Rg max_iter vb = Ok q.
Proof.
  intros t s cm b tol Rg max_iter vb dt q q' Wf Wc AC GCv ED E1 E2 FL.
  destruct (linear_inv t s b q Wf E1) as (dt1 & p & ED1 & ES & -> & L & _). rewrite ED in ED1. injection ED1 as <-.
  destruct (linear_inv t (pad s dt) b q' Wf E2) as (dt2 & p2 & ED2 & ES2 & -> & _). rewrite (pad_first_step s dt L ED) in ED2. injection ED2 as <-. rewrite ES in ES2. injection ES2 as <-.
  apply unmoved; try assumption. change (sr_profile (outcome (pad s dt) p dt b)) with p in FL. intros k gd Hk (z & Em & CP).
  assert (NG : gam_of (run_N s) dt (map elay_of p) b (run_A s) k <> []) by (intros EE; apply (f_equal (@length R)) in EE; rewrite gam_length in EE by exact L; destruct (run_N_spec s L) as (_ & _ & N3); cbn in EE; lia).
  destruct (max_abs_in _ NG) as (v & Iv & Ev). rewrite <- (gamma_of_padded s p dt b k L Hk) in Iv. specialize (FL k v z Hk Iv Em). unfold flat_until in FL.
  destruct AC as ((V & C5 & _ & init & lst & Er & Z & HB) & _ & _ & Hn & HC). unfold good_curves in GCv. rewrite Er, removelast_last in HC, GCv.
  destruct (strat_materials t p init lst V C5 Er Z ES) as [SM _].
  assert (I : In (nth k p row0) (removelast p)) by (rewrite <- nth_removelast by lia; apply nth_In; rewrite removelast_length; lia). destruct (SM _ I) as (x & Ix & Ex).
  destruct (table_materials t init lst x V C5 Er Ix) as (z' & E4 & Hz & E2'). assert (Ez : z' = z) by (apply eq_IZR; rewrite <- Em; unfold material; rewrite Ex; symmetry; exact E2'). subst z'.
  specialize (HC x z Ix E4). specialize (GCv x z Ix E4). pose proof (layer_curve_ok cm (nth k p row0) z Wc Hz Em HC Hn) as LO. unfold good_curve in GCv.
  destruct (columns cm (Z.to_nat z)) as [[sG g] [sD d]]. destruct LO as (_ & L1 & L2 & L3 & L4). destruct GCv as (SG & SD & _ & _). destruct FL as (F1 & F2 & F3). destruct CP as (y & w & P1 & Ey & P2 & Ew).
  assert (Hy : y = 1).
  { apply (pl_flat sG g 1 _ y (Rmin (1 / 10000) (last g 0)) SG ltac:(lia) F1) in P1; [exact P1|intros EE; rewrite EE in L1; cbn in L1; lia|]. rewrite Ev. exact F3. }
  assert (Hw : w = hd 0 d).
  { assert (LD : last d 0 = hd 0 d). { assert (ND : d <> []) by (intros EE; rewrite EE in L4; cbn in L4; lia). destruct (exists_last ND) as (d' & u & Ed). rewrite Forall_forall in F2. rewrite Ed at 1. rewrite last_last. symmetry. apply F2. rewrite Ed. apply in_or_app. right. left. reflexivity. }
    rewrite LD in P2. apply (pl_const sD d (hd 0 d) _ w SD ltac:(lia) F2 P2). }
  destruct gd as [G D]. cbn [fst snd] in *. rewrite Ey, Ew, Hy, Hw. f_equal; lra.
Qed.

(** A record at rest: the same as the linear simulation, for any curves. *)
Theorem C55_at_rest : forall t s cm b tol Rg max_iter vb, table_wf t -> cmat_wf cm -> eq_acceptable t s cm b max_iter -> good_curves t cm ->
  Forall (eq 0) (vals s) -> equiv_linear t s cm b tol Rg max_iter vb = linear t s b.
Proof.
  intros t s cm b tol Rg max_iter vb Wf Wc AC GCv FZ. pose proof AC as ((V & C5 & L & init & lst & Er & Z & HB) & _ & _ & Hn & HC).
  destruct (proj2 (C56_accepts_iff t s b Wf) (proj1 AC)) as (q & E1). rewrite E1.
  destruct (linear_inv t s b q Wf E1) as (dt & p & ED & ES & -> & _ & Cl & So & HB' & NP). destruct (pad_padded s dt L) as (PD & PE & PL).
  assert (AP : acceptable t (pad s dt) b) by (split; [exact V|split; [exact C5|split; [exact PL|exists init, lst; auto]]]).
  destruct (proj2 (C56_accepts_iff t (pad s dt) b Wf) AP) as (q' & E2).
  destruct (linear_inv t (pad s dt) b q' Wf E2) as (dt2 & p2 & ED2 & ES2 & Eq' & _). rewrite (pad_first_step s dt L ED) in ED2. injection ED2 as <-. rewrite ES in ES2. injection ES2 as <-.
  assert (VZ : Forall (eq 0) (vals (pad s dt))).
  { unfold pad. destruct (Nat.even (length s)); [|exact FZ]. unfold vals. rewrite map_app. apply Forall_app. split; [exact FZ|]. constructor; [|constructor]. cbn [snd].
    assert (NV : vals s <> []) by (destruct s; [cbn in L; lia|discriminate]). destruct (exists_last NV) as (l & x & El). fold (vals s). rewrite Forall_forall in FZ. rewrite El, last_last. apply FZ. rewrite El. apply in_or_app. right. left. reflexivity. }
  assert (SB : combine (times (pad s dt)) (blend 0 0 (vals (pad s dt)) (vals (pad s dt))) = pad s dt).
  { revert VZ. generalize (pad s dt). intros l. induction l as [|[a v] l IH]; intros VZ; [reflexivity|]. unfold blend, times, vals in *. cbn [map combine fst snd] in *. inversion VZ; subst. f_equal; [f_equal; lra|]. apply IH. assumption. }
  destruct (C24_superposition t (pad s dt) (pad s dt) b 0 0 q' q' Wf eq_refl E2 E2) as (q2 & E3 & _ & _ & _ & EG & _). rewrite SB, E2 in E3. injection E3 as <-.
  apply unmoved; try assumption. intros k gd Hk (z & Em & CP).
  assert (G0 : max_abs (gam_of (run_N s) dt (map elay_of p) b (run_A s) k) = 0).
  { rewrite <- (gamma_of_padded s p dt b k L Hk), <- Eq', EG. unfold blends.
    destruct (Nat.lt_ge_cases k (length (combine (sr_gamma q') (sr_gamma q')))) as [H|H].
    - rewrite (map_nth' _ _ k ([], [])) by exact H. match goal with |- max_abs (blend 0 0 ?x ?y) = 0 => destruct (blend 0 0 x y) eqn:EB; [reflexivity|]; destruct (max_abs_in (blend 0 0 x y)) as (v & Iv & Ev) end.
      + rewrite EB. discriminate.
      + rewrite <- EB, Ev. unfold blend in Iv. apply in_map_iff in Iv as (w & <- & _). rewrite !Rmult_0_l, Rplus_0_l. apply Rabs_R0.
    - rewrite nth_overflow by (rewrite map_length; exact H). reflexivity. }
  rewrite G0, Rmult_0_r in CP. unfold good_curves in GCv. rewrite Er, removelast_last in HC, GCv.
  destruct (strat_materials t p init lst V C5 Er Z ES) as [SM _].
  assert (I : In (nth k p row0) (removelast p)) by (rewrite <- nth_removelast by lia; apply nth_In; rewrite removelast_length; lia). destruct (SM _ I) as (x & Ix & Ex).
  destruct (table_materials t init lst x V C5 Er Ix) as (z' & E4 & Hz & E2'). assert (Ez : z' = z) by (apply eq_IZR; rewrite <- Em; unfold material; rewrite Ex; symmetry; exact E2'). subst z'.
  specialize (HC x z Ix E4). specialize (GCv x z Ix E4). pose proof (layer_curve_ok cm (nth k p row0) z Wc Hz Em HC Hn) as LO. unfold good_curve in GCv.
  destruct (columns cm (Z.to_nat z)) as [[sG g] [sD d]]. destruct LO as (_ & L1 & L2 & L3 & L4). destruct GCv as (SG & SD & _ & _). destruct CP as (y & w & P1 & Ey & P2 & Ew).
  assert (H1 : y = 1) by (apply (pl_at_node ((0, 1) :: combine (map (fun v => v / 100) sG) g ++ [(100, Rmin (1 / 10000) (last g 0))]) 0%nat y); [apply incr_table; [exact SG|lia]|cbn; lia|exact P1]).
  assert (H2 : w = hd 0 d) by (apply (pl_at_node ((0, hd 0 d) :: combine (map (fun v => v / 100) sD) d ++ [(100, last d 0)]) 0%nat w); [apply incr_table; [exact SD|lia]|cbn; lia|exact P2]).
  destruct gd as [G D]. cbn [fst snd] in *. rewrite Ey, Ew, H1, H2. f_equal; lra.
Qed.

(** ** Verbosity *)

(** Only a verbose run looks at the tolerance: it returns what a silent run with some
    smaller number of iterations returns (any tolerance), namely the first after which
    the moduli are stable, if any. *)
Theorem C55_verbosity : forall t s cm b tol Rg max_iter r, table_wf t -> cmat_wf cm ->
  equiv_linear t s cm b tol Rg max_iter true = Ok r ->
  exists m, (1 <= m <= max_iter)%Z /\ (forall tol', equiv_linear t s cm b tol' Rg m false = Ok r) /\
    forall tol', equiv_linear t s cm b tol' Rg max_iter false = equiv_linear t s cm b tol Rg max_iter false.
Proof.
  intros t s cm b tol Rg max_iter r Wf Wc E.
  assert (AC : eq_acceptable t s cm b max_iter) by (apply (C55_accepts_iff t s cm b tol Rg max_iter true Wf Wc); eauto).
  destruct (eq_run t s cm b tol Rg max_iter true Wc AC) as (dt & p & cs & m & ED & ES & RN & P2 & ECS & Hm & EQ & _ & _). rewrite E in EQ. injection EQ as ->.
  assert (AM : forall i, (1 <= i)%Z -> eq_acceptable t s cm b i) by (intros i Hi; destruct AC as (A1 & A2 & _ & A4); repeat (split; [assumption|]); exact A4).
  assert (SL : forall i tol', (1 <= i)%Z -> equiv_linear t s cm b tol' Rg i false = Ok (eq_outcome s p (traj p cs b dt (run_A s) Rg (Z.to_nat i - 1) (initial p)) (traj p cs b dt (run_A s) Rg (Z.to_nat i) (initial p)) dt b)).
  { intros i tol' Hi. destruct (eq_run t s cm b tol' Rg i false Wc (AM i Hi)) as (dt1 & p1 & cs1 & m1 & ED1 & ES1 & _ & _ & ECS1 & _ & EQ1 & F1 & _).
    rewrite ED in ED1. injection ED1 as <-. rewrite ES in ES1. injection ES1 as <-. rewrite ECS in ECS1. injection ECS1 as <-. rewrite (F1 eq_refl) in EQ1. exact EQ1. }
  exists (Z.of_nat m). destruct AC as (_ & _ & HM & _). split; [lia|]. split.
  - intros tol'. rewrite SL by lia. rewrite Nat2Z.id. reflexivity.
  - intros tol'. rewrite !SL by exact HM. reflexivity.
Qed.

(** ** C60: the layer count *)

(** The check refuses an argument exactly when the profile has no row, or a given
    argument has fewer sets than the largest material number. *)
Theorem C60_check_layer_count : forall mats G xi c,
  (check_layer_count mats G xi c = Ok tt <->
     mats <> [] /\ forall n, G = Some n \/ xi = Some n \/ c = Some n -> Forall (fun m => m <= INR n) mats) /\
  (check_layer_count mats G xi c <> Ok tt -> check_layer_count mats G xi c = Err ValueError).
Proof.
  intros mats G xi c.
  assert (MX : forall l x, Forall (fun m => m <= fold_left Rmax l x) (x :: l) /\ In (fold_left Rmax l x) (x :: l)).
  { induction l as [|y l IH]; intros x; cbn [fold_left]; [split; [constructor; [lra|constructor]|left; reflexivity]|]. destruct (IH (Rmax x y)) as [F I]. inversion F as [|? ? F1 F2]; subst. split.
    - pose proof (Rmax_l x y). pose proof (Rmax_r x y). constructor; [lra|]. constructor; [lra|exact F2].
    - destruct I as [<-|I]; [|right; right; exact I]. unfold Rmax. destruct Rle_dec; [right; left; reflexivity|left; reflexivity]. }
  destruct mats as [|x l]; [split; [split; [discriminate|intros [H _]; congruence]|reflexivity]|].
  destruct (MX l x) as [F I]. unfold check_layer_count. set (m := fold_left Rmax l x) in *.
  assert (TF : forall o, too_few o m = false <-> forall n, o = Some n -> Forall (fun v => v <= INR n) (x :: l)).
  { intros [n|]; [|split; [discriminate|reflexivity]]. cbn [too_few]. destruct (Rltb_spec (INR n) m) as [H|H]; split; try discriminate; try reflexivity.
    - intros A. specialize (A n eq_refl). rewrite Forall_forall in A. specialize (A m I). lra.
    - intros _ n' E. injection E as <-. eapply Forall_impl; [|exact F]. cbn. intros v Hv. lra. }
  pose proof (TF G) as TG. pose proof (TF xi) as TX. pose proof (TF c) as TC. split.
  - split.
    + intros E. split; [discriminate|]. destruct (too_few G m); [discriminate|]. destruct (too_few xi m); [discriminate|]. destruct (too_few c m); [discriminate|].
      intros n [H|[H|H]]; [apply (proj1 TG eq_refl n H)|apply (proj1 TX eq_refl n H)|apply (proj1 TC eq_refl n H)].
    + intros [_ A]. rewrite (proj2 TG), (proj2 TX), (proj2 TC); [reflexivity| | |]; intros n H; apply (A n); auto.
  - destruct (too_few G m); [reflexivity|]. destruct (too_few xi m); [reflexivity|]. destruct (too_few c m); [reflexivity|congruence].
Qed.

(** After a successful check no simulation on a non-empty set of curves fails for want
    of a curve: with the arguments the linear simulation accepts and at least one
    iteration and one soil layer, it returns a result. *)
Theorem C60_enough_curves : forall t s cm b tol Rg max_iter vb n, table_wf t -> cmat_wf cm -> acceptable t s b ->
  length (cm_cols cm) = (4 * n)%nat -> (1 <= cm_n cm)%nat -> (1 <= max_iter)%Z -> (2 <= length (t_rows t))%nat ->
  check_layer_count (map (cell 4) (t_rows t)) None None (Some n) = Ok tt ->
  exists r, equiv_linear t s cm b tol Rg max_iter vb = Ok r.
Proof.
  intros t s cm b tol Rg max_iter vb n Wf Wc AC LC Hn HM L2 CK. apply C55_accepts_iff; [exact Wf|exact Wc|]. split; [exact AC|]. split; [exact L2|]. split; [exact HM|]. split; [exact Hn|].
  intros x z I E4. apply C60_check_layer_count in CK as [_ CK]. specialize (CK n ltac:(auto)). rewrite Forall_forall in CK.
  assert (I' : In x (t_rows t)). { destruct AC as (_ & _ & _ & init & lst & Er & _). rewrite Er in *. rewrite removelast_last in I. apply in_or_app. left. exact I. }
  specialize (CK _ (in_map (cell 4) _ _ I')). rewrite E4 in CK. rewrite INR_IZR_INZ in CK. apply le_IZR in CK. rewrite LC. lia.
Qed.

(** ** Instances *)
Definition demo_curves : cmat := mkcmat 2 [[1 / 10; 1]; [9 / 10; 1 / 2]; [1 / 10; 1]; [2; 10]].
Definition flat_curves : cmat := mkcmat 2 [[1 / 10; 9000]; [1; 1]; [1 / 10; 1]; [2; 2]].
Definition rest_record : signal := [(0, 0); (1 / 100, 0); (2 / 100, 0); (3 / 100, 0)].
Lemma demo_eq_ok s cm b max_iter : (2 <= length s)%nat -> length (cm_cols cm) = 4%nat -> (1 <= cm_n cm)%nat -> (1 <= max_iter)%Z -> eq_acceptable demo_table s cm b max_iter.
Proof.
  intros L LC Hn HM. destruct (demo_ok s b L) as [_ A]. split; [exact A|]. split; [cbn; lia|]. split; [exact HM|]. split; [exact Hn|].
  intros x z I E. change (removelast (t_rows demo_table)) with [[1; 225; 5 / 100; 2000; 1]] in I. destruct I as [<-|[]]. unfold cell in E. cbn [nth] in E.
  assert (E1 : 1%Z = z) by (apply eq_IZR; exact E). subst z. rewrite LC. cbn. lia.
Qed.
Lemma demo_good cm : cmat_wf cm -> good_curve cm 1 -> good_curves demo_table cm.
Proof.
  intros _ G x z I E. change (removelast (t_rows demo_table)) with [[1; 225; 5 / 100; 2000; 1]] in I. destruct I as [<-|[]]. unfold cell in E. cbn [nth] in E.
  assert (E1 : 1%Z = z) by (apply eq_IZR; exact E). subst z. exact G.
Qed.
Lemma two_strains a c : 0 < a -> a < c -> c < 10000 -> good_strains [a; c].
Proof. intros A B D. split; [repeat constructor; lra|]. intros [|k] Hk; cbn in *; [exact B|lia]. Qed.
Example C55_instance : table_wf demo_table /\ cmat_wf demo_curves /\ good_curves demo_table demo_curves /\ eq_acceptable demo_table demo_odd demo_curves Elastic 3 /\
  eq_acceptable demo_table rest_record demo_curves Rigid 3 /\ Forall (eq 0) (vals rest_record) /\
  (exists r, equiv_linear demo_table demo_odd demo_curves Elastic (1 / 100) (13 / 20) 3 true = Ok r) /\ first_step demo_odd = Ok (1 / 100).
Proof.
  assert (W : cmat_wf demo_curves) by (repeat constructor). assert (T : table_wf demo_table) by (repeat constructor).
  assert (A : eq_acceptable demo_table demo_odd demo_curves Elastic 3) by (apply demo_eq_ok; cbn; lia).
  assert (G : good_curve demo_curves 1).
  { unfold good_curve, columns, demo_curves. cbn [cm_cols nth Nat.sub Nat.mul Nat.add hd]. repeat split; try (apply two_strains; lra); repeat constructor; lra. }
  split; [exact T|]. split; [exact W|]. split; [apply demo_good; assumption|]. split; [exact A|]. split; [apply demo_eq_ok; cbn; lia|]. split; [repeat constructor|].
  split; [apply C55_accepts_iff; assumption|]. unfold first_step, get, times, demo_odd. cbn. f_equal. lra.
Qed.
(** Flat curves up to 9000 %: the hypothesis of the linear limit, at rest for a small
    instance (no strain). *)
Example C55_limit_instance : cmat_wf flat_curves /\ good_curves demo_table flat_curves /\ eq_acceptable demo_table demo_odd flat_curves Elastic 3 /\
  forall e, e <= 90 -> flat_until flat_curves 1 e.
Proof.
  assert (W : cmat_wf flat_curves) by (repeat constructor).
  split; [exact W|]. split; [|split; [apply demo_eq_ok; cbn; lia|]].
  - apply demo_good; [exact W|]. unfold good_curve, columns, flat_curves. cbn [cm_cols nth Nat.sub Nat.mul Nat.add hd]. repeat split; try (apply two_strains; lra); repeat constructor; lra.
  - intros e He. unfold flat_until, columns, flat_curves. cbn [cm_cols nth Nat.sub Nat.mul Nat.add hd last]. split; [repeat constructor|]. split; [repeat constructor|]. lra.
Qed.
Example C60_instance : check_layer_count (map (cell 4) (t_rows demo_table)) None None (Some 1%nat) = Ok tt /\ check_layer_count [1; 3; 2; 0] (Some 3%nat) (Some 2%nat) None = Err ValueError.
Proof.
  split.
  - apply C60_check_layer_count. split; [discriminate|]. intros n [H|[H|H]]; try discriminate. injection H as <-. unfold cell. cbn. repeat constructor; lra.
  - apply C60_check_layer_count. intros H. apply C60_check_layer_count in H as [_ H]. specialize (H 2%nat ltac:(auto)). inversion H as [|? ? _ H2]. inversion H2 as [|? ? H3 _]. cbn in H3. lra.
Qed.
