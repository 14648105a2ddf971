(** C55, C60: equivalent-linear simulation and the layer-count check. *)
From Coq Require Import Reals List Bool ZArith Lia Lra Psatz.
From Coquelicot Require Import Coquelicot.
From Coq Require Import List.
From Verif Require Import Base M_generic P_generic M_profile P_profile Prop_profile M_vs_profile P_vs_profile M_motion M_interp P_interp M_dft P_dft M_spectra P_spectra M_linear P_linear Prop_linear M_simlin P_simlin Prop_simlin Prop_simkin M_eqlin P_eqlin.
Import ListNotations.
Open Scope R_scope.

(** ** Materials of the re-discretised profile *)
Definition material (r : row) : R := nth 2 (r_rest r) 0.
Lemma Int_part_IZR z : Int_part (IZR z) = z.
Proof.
  destruct (base_Int_part (IZR z)) as [H1 H2]. apply le_IZR in H1. assert (H3 : IZR (Int_part (IZR z)) > IZR z - 1) by lra.
  rewrite <- minus_IZR in H3. apply Rgt_lt, lt_IZR in H3. lia.
Qed.
Lemma in_sublayers r x : In x (sublayers r) -> r_rest x = r_rest r.
Proof. unfold sublayers. destruct Rleb; [intros [<-|[]]; reflexivity|]. intros H. apply repeat_spec in H. subst x. reflexivity. Qed.
(** Material numbers of the soil layers, as integers. *)
Definition soil_mats (t : table) (M : Z -> Prop) : Prop := forall x, In x (removelast (t_rows t)) -> exists z, cell 4 x = IZR z /\ M z.
Lemma strat_materials t p init lst : valid_table t -> t_ncol t = 5%nat -> t_rows t = init ++ [lst] -> cell 0 lst = 0 -> stratify (map row_of (t_rows t)) = Ok p ->
  (forall r, In r (removelast p) -> exists x, In x init /\ r_rest r = skipn 2 x) /\
  (forall x, In x init -> exists r, In r (removelast p) /\ r_rest r = skipn 2 x).
Proof.
  intros V C5 Er Z ES. unfold stratify in ES. rewrite Er, map_app in ES. cbn [map] in ES. rewrite last_res_app in ES. cbn [bind] in ES.
  change (r_h (row_of lst)) with (cell 0 lst) in ES. rewrite (proj2 (Reqb_true _ _) Z) in ES. injection ES as <-. rewrite !removelast_last. split.
  - intros r I. apply in_flat_map in I as (r' & I1 & I2). apply in_map_iff in I1 as (x & <- & I1). exists x. split; [exact I1|]. apply in_sublayers in I2. rewrite I2. reflexivity.
  - intros x I. assert (NE : exists r, In r (sublayers (row_of x))).
    { assert (Pv : 0 < r_h (row_of x) /\ 0 < r_vs (row_of x)).
      { destruct V as (five & Ec & i' & l' & Er' & Fi & _). destruct five; [|rewrite C5 in Ec; discriminate]. rewrite Er in Er'. apply app_inj_tail in Er' as [<- <-].
        rewrite Forall_forall in Fi. destruct (good_soil false x (Fi x I)) as [[(Vp & _) _] H]. split; [exact H|exact Vp]. }
      unfold sublayers. destruct (Rleb_spec (r_h (row_of x)) (r_vs (row_of x) / 225)) as [H|H]; [exists (row_of x); left; reflexivity|].
      set (q := r_h (row_of x) / (r_vs (row_of x) / 225)). assert (Q : 0 < q) by (unfold q; apply Rdiv_lt_0_compat; [apply Pv|apply Rdiv_lt_0_compat; lra]).
      assert (CN : (0 < ceil q)%Z). { unfold ceil. destruct (base_Int_part (- q)) as [B1 _]. assert (HH : (Int_part (- q) < 0)%Z) by (apply lt_IZR; lra). lia. }
      destruct (Z.to_nat (ceil q)) eqn:EN; [lia|]. eexists. left. reflexivity. }
    destruct NE as (r & I2). exists r. split; [|apply in_sublayers in I2; rewrite I2; reflexivity]. apply in_flat_map. exists (row_of x). split; [apply in_map; exact I|exact I2].
Qed.

(** ** Curves *)

(** The columns of material number [m] (1-based). *)
Definition columns (cm : cmat) (m : nat) : list R * list R * (list R * list R) :=
  let c j := nth (4 * (m - 1) + j) (cm_cols cm) [] in ((c 0%nat, c 1%nat), (c 2%nat, c 3%nat)).
Definition cmat_wf (cm : cmat) : Prop := Forall (fun c => length c = cm_n cm) (cm_cols cm).

Lemma layer_curve_ok cm r z : cmat_wf cm -> (0 < z)%Z -> material r = IZR z -> (4 * Z.to_nat z <= length (cm_cols cm))%nat -> (1 <= cm_n cm)%nat ->
  let '((sG, g), (sD, d)) := columns cm (Z.to_nat z) in
  layer_curve cm r = Ok (mkecurve (map (fun x => x / 100) sG) g (map (fun x => x / 100) sD) (map (fun x => x - hd 0 d / 100 + nth 0 (r_rest r) 0) (map (fun x => x / 100) d))) /\
  length sG = cm_n cm /\ length g = cm_n cm /\ length sD = cm_n cm /\ length d = cm_n cm.
Proof.
  intros Wf Hz Em Hc Hn. unfold columns. assert (LL : forall j, (j < 4)%nat -> length (nth (4 * (Z.to_nat z - 1) + j) (cm_cols cm) []) = cm_n cm).
  { intros j Hj. unfold cmat_wf in Wf. rewrite Forall_forall in Wf. apply Wf, nth_In. lia. }
  assert (GC : forall j, (j < 4)%nat -> get_col cm (mat_of r * 4 + Z.of_nat j) = Ok (nth (4 * (Z.to_nat z - 1) + j) (cm_cols cm) [])).
  { intros j Hj. unfold get_col, mat_of. change (nth 2 (r_rest r) 0) with (material r). rewrite Em, Int_part_IZR.
    replace ((0 <=? (z - 1) * 4 + Z.of_nat j) && ((z - 1) * 4 + Z.of_nat j <? Z.of_nat (length (cm_cols cm))))%Z%bool with true.
    - do 2 f_equal. lia.
    - symmetry. apply andb_true_iff. split; [apply Z.leb_le; lia|apply Z.ltb_lt; lia]. }
  unfold layer_curve. pose proof (GC 0%nat ltac:(lia)) as G0. pose proof (GC 1%nat ltac:(lia)) as G1. pose proof (GC 2%nat ltac:(lia)) as G2. pose proof (GC 3%nat ltac:(lia)) as G3.
  change (Z.of_nat 0) with 0%Z in G0. change (Z.of_nat 1) with 1%Z in G1. change (Z.of_nat 2) with 2%Z in G2. change (Z.of_nat 3) with 3%Z in G3.
  rewrite G0, G1, G2, G3. cbn [bind]. pose proof (LL 3%nat ltac:(lia)) as L3. destruct (nth (4 * (Z.to_nat z - 1) + 3) (cm_cols cm) []) as [|d0 d] eqn:Ed; [cbn in L3; lia|].
  cbn [map get nth_error bind hd]. split; [reflexivity|]. split; [apply LL; lia|]. split; [apply LL; lia|]. split; [apply LL; lia|exact L3].
Qed.
Lemma layer_curve_err cm r z : (0 < z)%Z -> material r = IZR z -> (length (cm_cols cm) < 4 * Z.to_nat z)%nat \/ (cmat_wf cm /\ cm_n cm = 0%nat) -> layer_curve cm r = Err IndexError.
Proof.
  intros Hz Em H. assert (MI : mat_of r = (z - 1)%Z) by (unfold mat_of; change (nth 2 (r_rest r) 0) with (material r); rewrite Em, Int_part_IZR; reflexivity).
  assert (GE : forall j c, (0 <= j)%Z -> get_col cm ((z - 1) * 4 + j) = Ok c -> In c (cm_cols cm) /\ ((z - 1) * 4 + j < Z.of_nat (length (cm_cols cm)))%Z).
  { intros j c Hj E. unfold get_col in E. destruct ((0 <=? _) && _)%Z%bool eqn:B1 in E.
    - injection E as <-. apply andb_true_iff in B1 as [B1 B2]. apply Z.ltb_lt in B2. split; [apply nth_In; lia|exact B2].
    - destruct ((- _ <=? _) && _)%Z%bool eqn:B2 in E; [|discriminate]. apply andb_true_iff in B2 as [_ B2]. apply Z.ltb_lt in B2. lia. }
  unfold layer_curve. rewrite MI.
  assert (EE : forall j, match get_col cm ((z - 1) * 4 + j) with Ok _ => True | Err e => e = IndexError end).
  { intros j. unfold get_col. destruct (_ && _)%bool; [exact I|]. destruct (_ && _)%bool; [exact I|reflexivity]. }
  pose proof (EE 0%Z) as E0. pose proof (EE 1%Z) as E1. pose proof (EE 2%Z) as E2. pose proof (EE 3%Z) as E3.
  destruct (get_col cm ((z - 1) * 4 + 0)) as [c0|e]; [|subst e; reflexivity]. cbn [bind].
  destruct (get_col cm ((z - 1) * 4 + 1)) as [c1|e]; [|subst e; reflexivity]. cbn [bind].
  destruct (get_col cm ((z - 1) * 4 + 2)) as [c2|e]; [|subst e; reflexivity]. cbn [bind].
  destruct (get_col cm ((z - 1) * 4 + 3)) as [c3|e] eqn:G3; [|subst e; reflexivity]. cbn [bind].
  destruct (GE 3%Z c3 ltac:(lia) G3) as [I3 L3]. destruct H as [H|[Wf H]]; [lia|].
  unfold cmat_wf in Wf. rewrite Forall_forall in Wf. apply Wf in I3. rewrite H in I3. destruct c3; [reflexivity|discriminate].
Qed.

(** ** Runs *)
Lemma map_res_length {A B} (f : A -> res B) l ys : map_res f l = Ok ys -> length ys = length l.
Proof. revert ys. induction l as [|x l IH]; intros ys E; cbn [map_res] in E; [injection E as <-; reflexivity|]. destruct (f x); [|discriminate]. cbn [bind] in E. destruct (map_res f l) eqn:E2; [|discriminate]. injection E as <-. cbn. f_equal. apply IH. reflexivity. Qed.
Lemma map_res_nth {A B} (f : A -> res B) l : forall ys k d e, map_res f l = Ok ys -> (k < length l)%nat -> f (nth k l d) = Ok (nth k ys e).
Proof.
  induction l as [|x l IH]; intros ys k d e E Hk; cbn [map_res length] in *; [lia|]. destruct (f x) eqn:E1; [|discriminate]. cbn [bind] in E. destruct (map_res f l) eqn:E2; [|discriminate]. injection E as <-.
  destruct k; [exact E1|]. cbn [nth]. apply IH; [reflexivity|lia].
Qed.
Lemma map_res_err {A B} (f : A -> res B) l e : (forall x, In x l -> match f x with Ok _ => True | Err e' => e' = e end) -> (exists x, In x l /\ f x = Err e) -> map_res f l = Err e.
Proof.
  intros H (x & I & E). induction l as [|y l IH]; [destruct I|]. cbn [map_res]. pose proof (H y (or_introl eq_refl)) as Hy. destruct (f y) eqn:Ey; [|subst; reflexivity]. cbn [bind].
  destruct I as [->|I]; [congruence|]. rewrite IH; [reflexivity| |exact I]. intros z Iz. apply H. right. exact Iz.
Qed.
Lemma map_res_all {A B} (f : A -> res B) l : (forall x, In x l -> exists y, f x = Ok y) -> exists ys, map_res f l = Ok ys.
Proof.
  induction l as [|x l IH]; intros H; cbn [map_res]; [eauto|]. destruct (H x (or_introl eq_refl)) as (y & ->). cbn [bind]. destruct IH as (ys & ->); [intros z I; apply H; right; exact I|]. cbn [bind]. eauto.
Qed.

(** Acceptable arguments: those of the linear simulation, at least one soil layer, a
    row in the curve matrix, four columns for each material number of the soil layers,
    and at least one iteration. *)
Definition eq_acceptable (t : table) (s : signal) (cm : cmat) (b : boundary) (max_iter : Z) : Prop :=
  acceptable t s b /\ (2 <= length (t_rows t))%nat /\ (1 <= max_iter)%Z /\ (1 <= cm_n cm)%nat /\
  forall x z, In x (removelast (t_rows t)) -> cell 4 x = IZR z -> (4 * Z.to_nat z <= length (cm_cols cm))%nat.

Lemma table_materials t init lst x : valid_table t -> t_ncol t = 5%nat -> t_rows t = init ++ [lst] -> In x init ->
  exists z, cell 4 x = IZR z /\ (0 < z)%Z /\ nth 2 (skipn 2 x) 0 = IZR z.
Proof.
  intros (five & Ec & i' & l' & Er' & Fi & _) C5 Er I. destruct five; [|rewrite C5 in Ec; discriminate]. rewrite Er in Er'. apply app_inj_tail in Er' as [<- <-].
  rewrite Forall_forall in Fi. destruct (Fi x I) as (thk & vs & tl & -> & _ & _ & xi & rho & m & -> & _ & _ & Hm). exists m. split; [reflexivity|]. split; [exact Hm|reflexivity].
Qed.

Theorem eq_run : forall t s cm b tol Rg max_iter vb, cmat_wf cm -> eq_acceptable t s cm b max_iter ->
  exists dt p cs m, first_step s = Ok dt /\ stratify (map row_of (t_rows t)) = Ok p /\ runs s p b /\ (2 <= length p)%nat /\
    map_res (layer_curve cm) (removelast p) = Ok cs /\ (1 <= m <= Z.to_nat max_iter)%nat /\
    let tr j := traj p cs b dt (run_A s) Rg j (initial p) in
    equiv_linear t s cm b tol Rg max_iter vb = Ok (eq_outcome s p (tr (m - 1)%nat) (tr m) dt b) /\
    (vb = false -> m = Z.to_nat max_iter) /\
    (vb = true -> (forall j, (1 <= j < m)%nat -> all_settled tol (tr (j - 1)%nat) (tr j) = false) /\ ((m < Z.to_nat max_iter)%nat -> all_settled tol (tr (m - 1)%nat) (tr m) = true)).
Proof.
  intros t s cm b tol Rg max_iter vb Wc ((V & C5 & L & init & lst & Er & Z & HB) & L2 & HM & Hn & HC).
  destruct (proj2 (first_step_ok s) L) as (dt & ED).
  destruct (strat_ok t V C5) as (init' & lst' & p & Er' & ES & Cl & So & Len & pi & pl & EP & FH & HZ & H0).
  rewrite Er in Er'. apply app_inj_tail in Er' as [<- <-]. pose proof (proj2 HZ Z) as ZP.
  assert (P2 : (2 <= length p)%nat) by lia.
  destruct (strat_materials t p init lst V C5 Er Z ES) as [SM _].
  assert (CS : exists cs, map_res (layer_curve cm) (removelast p) = Ok cs).
  { apply map_res_all. intros r I. destruct (SM r I) as (x & Ix & Ex). destruct (table_materials t init lst x V C5 Er Ix) as (z & E4 & Hz & E2).
    assert (Em : material r = IZR z) by (unfold material; rewrite Ex; exact E2).
    assert (HC' : (4 * Z.to_nat z <= length (cm_cols cm))%nat) by (apply (HC x z); [rewrite Er, removelast_last; exact Ix|exact E4]).
    pose proof (layer_curve_ok cm r z Wc Hz Em HC' Hn) as LO. destruct (columns cm (Z.to_nat z)) as [[sG g] [sD d]]. destruct LO as [LO _]. eauto. }
  destruct CS as (cs & ECS). pose proof (map_res_length _ _ _ ECS) as LC. rewrite removelast_length in LC.
  assert (NP : p <> []) by (intros E; rewrite E in P2; cbn in P2; lia).
  assert (HB' : b = Rigid -> (2 <= length p)%nat) by (intros _; exact P2).
  destruct (iterate_ok p cs b (Nat.even (length s)) (pad_time (times s) dt) dt (run_A s) Rg NP LC HB' tol vb (Z.to_nat max_iter) (initial p) None (initial_length p) P2 ltac:(lia)) as (m & Hm & EI & F1 & F2).
  exists dt, p, cs, m. split; [exact ED|]. split; [exact ES|]. split; [repeat (split; [assumption|]); lia|]. split; [exact P2|]. split; [exact ECS|]. split; [exact Hm|]. intros tr.
  split; [|split; [exact F1|exact F2]].
  unfold equiv_linear. rewrite (check_table_complete t V). unfold prepare_inputs. rewrite ED, ES. cbn [bind]. rewrite C5. cbn [Nat.eqb bind in_A in_profile in_dt].
  rewrite incident_padded. fold (run_A s). rewrite ECS. cbn [bind].
  replace (max_iter <? -1)%Z with false by (symmetry; apply Z.ltb_ge; lia). replace (max_iter =? -1)%Z with false by (symmetry; apply Z.eqb_neq; lia).
  rewrite EI. cbn [bind]. rewrite run_A_length in *. apply (eq_post s p (tr (m - 1)%nat) (tr m) dt b Rg pi pl); try assumption; apply (traj_length p cs b (Nat.even (length s)) (pad_time (times s) dt) dt (run_A s) Rg NP LC HB'), initial_length.
Qed.

Lemma eq_thick t s cm b tol Rg max_iter vb init lst dt p : valid_table t -> t_ncol t = 5%nat -> t_rows t = init ++ [lst] -> cell 0 lst <> 0 ->
  first_step s = Ok dt -> stratify (map row_of (t_rows t)) = Ok p -> is_ok (equiv_linear t s cm b tol Rg max_iter vb) = false.
Proof.
  intros V C5 Er Z ED ES. destruct (strat_ok t V C5) as (init' & lst' & p' & Er' & ES' & Cl & So & Len & pi & pl & EP & FH & HZ & _).
  rewrite Er in Er'. apply app_inj_tail in Er' as [<- <-]. rewrite ES in ES'. injection ES' as <-.
  unfold equiv_linear. rewrite (check_table_complete t V). unfold prepare_inputs. rewrite ED, ES. cbn [bind]. rewrite C5. cbn [Nat.eqb bind in_A in_profile in_dt].
  destruct (map_res (layer_curve cm) (removelast p)) as [cs|] eqn:EC; [|reflexivity]. cbn [bind]. pose proof (map_res_length _ _ _ EC) as LC. rewrite removelast_length in LC.
  destruct (max_iter <? -1)%Z; [reflexivity|]. destruct (max_iter =? -1)%Z; [reflexivity|]. destruct (iterate _ _ _ _ _ _ _ _ _) as [[m r]|] eqn:EI; [|reflexivity]. cbn [bind].
  unfold post. cbn [in_even in_dt in_t rs_a rs_v rs_d rs_gamma rs_H].
  assert (LP : (2 <= length p)%nat \/ length p = 1%nat) by (rewrite EP, app_length; cbn; destruct (length pi); [right|left]; lia).
  assert (NP : p <> []) by (rewrite EP; destruct pi; discriminate).
  destruct (Z.to_nat max_iter) as [|n] eqn:EM; [discriminate|].
  rewrite incident_padded in EI. fold (run_A s) in EI.
  assert (RG : b = Rigid -> (2 <= length p)%nat).
  { intros ->. destruct LP as [H|H]; [exact H|]. exfalso. cbn [iterate] in EI. unfold iteration in EI. cbn [in_profile in_A in_dt] in EI. unfold lin_resp in EI.
    rewrite alphas_err in EI by (rewrite elays_length by apply initial_length; lia). discriminate. }
  destruct LP as [LP|LP].
  - destruct (iterate_ok p cs b (Nat.even (length s)) (pad_time (times s) dt) dt (run_A s) Rg NP LC RG tol vb (S n) (initial p) None (initial_length p) LP ltac:(lia)) as (j & Hj & EI' & _).
    rewrite EI in EI'. injection EI' as -> ->.
    assert (LT : forall i, length (traj p cs b dt (run_A s) Rg i (initial p)) = length p) by (intros i; apply (traj_length p cs b (Nat.even (length s)) (pad_time (times s) dt) dt (run_A s) Rg NP LC RG), initial_length).
    rewrite set_damping_h by apply LT. assert (NP' : map r_h p <> []) by (rewrite EP, map_app; destruct (map r_h pi); discriminate).
    rewrite (thk2dep_top _ NP'). cbn [bind].
    assert (EMd : thk2dep (map r_h p) true = Ok (z_mid_from 0 (map r_h p))).
    { unfold thk2dep. replace (last_res (map r_h p)) with (Ok (r_h pl)) by (rewrite EP, map_app; cbn [map]; rewrite last_res_app; reflexivity). cbn [bind negb].
      rewrite (proj2 (Reqb_false _ _)); [reflexivity|]. intros E. apply Z, HZ, E. }
    rewrite EMd. cbn [bind]. unfold resp_of. cbn [rs_gamma]. rewrite !elays_length by apply LT. rewrite stress_cols by (rewrite elays_length by apply LT; reflexivity).
    rewrite z_mid_length, map_length, combine_length, !map_length, seq_length, Nat.min_id.
    destruct (Nat.eqb_spec (length p) (length p - 1)) as [E|_]; [lia|reflexivity].
  - rewrite (iterate_single p cs b (Nat.even (length s)) (pad_time (times s) dt) dt (run_A s) Rg NP LC RG tol vb (S n) (initial p) None LP) in EI; [discriminate|rewrite initial_length; exact LP|lia].
Qed.

Theorem C55_accepts_iff : forall t s cm b tol Rg max_iter vb, table_wf t -> cmat_wf cm ->
  ((exists r, equiv_linear t s cm b tol Rg max_iter vb = Ok r) <-> eq_acceptable t s cm b max_iter).
Proof.
  intros t s cm b tol Rg max_iter vb Wf Wc. split.
  - intros (r & E). assert (V : valid_table t).
    { apply (check_table t Wf). unfold equiv_linear in E. destruct (check_Vs_profile_format (as_pyobj t)) as [[]|]; [reflexivity|discriminate]. }
    assert (L : (2 <= length s)%nat).
    { unfold equiv_linear in E. rewrite (check_table_complete t V) in E. apply first_step_ok. unfold prepare_inputs in E. destruct (first_step s) as [dt|]; [eauto|discriminate]. }
    assert (C5 : t_ncol t = 5%nat).
    { destruct V as (five & Ec & Hg) eqn:EV. destruct five; [exact Ec|]. exfalso. unfold equiv_linear in E. rewrite (check_table_complete t V) in E. unfold prepare_inputs in E.
      destruct (first_step s); [|discriminate]. cbn [bind] in E. destruct (stratify (map row_of (t_rows t))); [|discriminate]. cbn [bind] in E. rewrite Ec in E. discriminate. }
    destruct (proj2 (first_step_ok s) L) as (dt & ED).
    destruct (strat_ok t V C5) as (init & lst & p & Er & ES & Cl & So & Len & pi & pl & EP & _ & HZ & H0).
    assert (Z : cell 0 lst = 0).
    { destruct (Req_dec (cell 0 lst) 0) as [Z|Z]; [exact Z|]. pose proof (eq_thick t s cm b tol Rg max_iter vb init lst dt p V C5 Er Z ED ES) as T. rewrite E in T. discriminate. }
    unfold equiv_linear in E. rewrite (check_table_complete t V) in E. unfold prepare_inputs in E. rewrite ED, ES in E. cbn [bind] in E. rewrite C5 in E. cbn [Nat.eqb bind in_A in_profile in_dt] in E.
    destruct (map_res (layer_curve cm) (removelast p)) as [cs|] eqn:EC; [|discriminate]. cbn [bind] in E. pose proof (map_res_length _ _ _ EC) as LC. rewrite removelast_length in LC.
    destruct (max_iter <? -1)%Z eqn:M1; [discriminate|]. destruct (max_iter =? -1)%Z eqn:M2; [discriminate|]. apply Z.ltb_ge in M1. apply Z.eqb_neq in M2.
    destruct (iterate _ _ _ _ _ _ _ _ _) as [[m r']|] eqn:EI; [|discriminate]. destruct (Z.to_nat max_iter) as [|n] eqn:EM; [discriminate|].
    assert (NP : p <> []) by (rewrite EP; destruct pi; discriminate). rewrite incident_padded in EI. fold (run_A s) in EI.
    assert (P2 : (2 <= length p)%nat).
    { destruct (Nat.lt_ge_cases (length p) 2) as [H|H]; [|exact H]. exfalso. assert (LP : length p = 1%nat) by (destruct p; [congruence|cbn in *; lia]). destruct b.
      - rewrite (iterate_single p cs Elastic (Nat.even (length s)) (pad_time (times s) dt) dt (run_A s) Rg NP LC) in EI; try discriminate; try assumption; [rewrite initial_length; exact LP|lia].
      - cbn [iterate] in EI. unfold iteration in EI. cbn [in_profile in_A in_dt] in EI. unfold lin_resp in EI. rewrite alphas_err in EI by (rewrite elays_length by apply initial_length; lia). discriminate. }
    specialize (H0 Z). assert (IN : init <> []) by (intros Ei; apply H0 in Ei; rewrite EP, app_length, Ei in P2; cbn in P2; lia).
    destruct (strat_materials t p init lst V C5 Er Z ES) as [_ SM].
    assert (CU : forall x z, In x init -> cell 4 x = IZR z -> (4 * Z.to_nat z <= length (cm_cols cm))%nat /\ (1 <= cm_n cm)%nat).
    { intros x z I E4. destruct (SM x I) as (r0 & Ir & Ex). destruct (table_materials t init lst x V C5 Er I) as (z' & E4' & Hz & E2).
      rewrite E4 in E4'. apply eq_IZR in E4'. subst z'.
      destruct (In_nth _ _ row0 Ir) as (k & Hk & Ek). pose proof (map_res_nth _ _ cs k row0 ec0 EC Hk) as EK. rewrite Ek in EK.
      assert (Em : material r0 = IZR z) by (unfold material; rewrite Ex; exact E2).
      split.
      - destruct (Nat.le_gt_cases (4 * Z.to_nat z) (length (cm_cols cm))) as [H|H]; [exact H|]. rewrite (layer_curve_err cm r0 z Hz Em) in EK by (left; exact H). discriminate.
      - destruct (Nat.le_gt_cases 1 (cm_n cm)) as [H|H]; [exact H|]. rewrite (layer_curve_err cm r0 z Hz Em) in EK by (right; split; [exact Wc|lia]). discriminate. }
    split; [split; [exact V|split; [exact C5|split; [exact L|exists init, lst; auto]]]|]. split; [|split; [lia|split]].
    + rewrite Er, app_length. cbn [length]. destruct init; [congruence|cbn [length]; lia].
    + destruct init as [|x init]; [congruence|]. destruct (table_materials t (x :: init) lst x V C5 Er (or_introl eq_refl)) as (z & E4 & _). apply (CU x z (or_introl eq_refl) E4).
    + intros x z I E4. rewrite Er, removelast_last in I. apply (CU x z I E4).
  - intros H. destruct (eq_run t s cm b tol Rg max_iter vb Wc H) as (dt & p & cs & m & _ & _ & _ & _ & _ & _ & E & _). eauto.
Qed.

(** ** The iterations *)

(** The column whose layers are those of [p] with other moduli and dampings. *)
Definition with_moduli (p : list row) (st : moduli) : list lay :=
  map (fun q => let rho := nth 1 (r_rest (fst q)) 0 in mklay (r_h (fst q)) (sqrt (fst (snd q) / rho)) (snd (snd q)) rho) (combine p st).
Definition Gmax (r : row) : R := nth 1 (r_rest r) 0 * r_vs r ^ 2.
Definition xi0 (r : row) : R := nth 0 (r_rest r) 0.

(** A record with one more sample when its length is even. *)
Definition pad (s : signal) (dt : R) : signal := if Nat.even (length s) then s ++ [(last (times s) 0 + dt, last (vals s) 0)] else s.

(** Modulus and damping read off the curves of the material of a layer at a strain:
    piecewise linear, from (0, 1) for the modulus, to at most 1e-4 at 10000 %, the
    damping shifted to start from that of the profile. *)
Definition curve_point (cm : cmat) (r : row) (strain : R) (gd : R * R) : Prop :=
  exists z, material r = IZR z /\ let '((sG, g), (sD, d)) := columns cm (Z.to_nat z) in
  exists y x,
    pl_value ((0, 1) :: combine (map (fun v => v / 100) sG) g ++ [(100, Rmin (1 / 10000) (last g 0))]) strain y /\ fst gd = Gmax r * y /\
    pl_value ((0, hd 0 d) :: combine (map (fun v => v / 100) sD) d ++ [(100, last d 0)]) strain x /\ snd gd = xi0 r + (x - hd 0 d) / 100.

(** Curves with increasing strains between 0 and 10000 %, moduli in (0, 1] and dampings
    not below the first one. *)
Definition good_strains (l : list R) : Prop := Forall (fun x => 0 < x < 10000) l /\ forall k, (S k < length l)%nat -> nth k l 0 < nth (S k) l 0.
Definition good_curve (cm : cmat) (m : nat) : Prop :=
  let '((sG, g), (sD, d)) := columns cm m in
  good_strains sG /\ good_strains sD /\ Forall (fun x => 0 < x <= 1) g /\ Forall (fun x => hd 0 d <= x) d.
Definition good_curves (t : table) (cm : cmat) : Prop :=
  forall x z, In x (removelast (t_rows t)) -> cell 4 x = IZR z -> good_curve cm (Z.to_nat z).

Definition stable (tol : R) (a b : moduli) : Prop := forall k, (S k < length a)%nat ->
  Rabs (fst (nth k a (0, 0)) - fst (nth k b (0, 0))) < tol * fst (nth k b (0, 0)) /\
  Rabs (snd (nth k a (0, 0)) - snd (nth k b (0, 0))) < tol * snd (nth k b (0, 0)).

(** *** Interpolation tables *)
Lemma pl_affine pts x y a c : pl_value (map (fun p => (fst p, a * snd p + c)) pts) x y -> exists v, pl_value pts x v /\ y = a * v + c.
Proof.
  assert (NM : forall k, (k < length pts)%nat -> nth k (map (fun p => (fst p, a * snd p + c)) pts) (0, 0) = (fst (nth k pts (0, 0)), a * snd (nth k pts (0, 0)) + c)).
  { intros k H. apply (map_nth' (fun p => (fst p, a * snd p + c)) pts k (0, 0) (0, 0) H). }
  intros [y0 x0 rest E H|k Hk H|k t Hk Ht Ex].
  - destruct pts as [|[u v] pts]; [discriminate|]. cbn [map fst snd] in E. injection E as -> <- <-. exists v. split; [|reflexivity]. apply (PL_left _ _ v x0 pts); [reflexivity|exact H].
  - rewrite map_length in Hk. rewrite NM in H by lia. rewrite NM by lia. cbn [fst snd] in *. exists (snd (nth k pts (0, 0))). split; [|reflexivity]. apply PL_right; assumption.
  - rewrite map_length in Hk. rewrite !NM in Ex by lia. rewrite !NM by lia. cbn [fst snd] in *. eexists. split; [apply (PL_mid pts x k t); assumption|]. ring.
Qed.
Lemma combine_app' {A B} (a : list A) (b : list B) x y : length a = length b -> combine (a ++ [x]) (b ++ [y]) = combine a b ++ [(x, y)].
Proof. revert b. induction a as [|u a IH]; intros [|v b] L; try discriminate; [reflexivity|]. cbn [combine app]. f_equal. apply IH. cbn in L. lia. Qed.
Lemma incr_table s y y0 ye : good_strains s -> length y = length s -> incr ((0, y0) :: combine (map (fun v => v / 100) s) y ++ [(100, ye)]).
Proof.
  intros [F M] L. rewrite <- combine_app' by (rewrite map_length; lia). change ((0, y0) :: combine (map (fun v => v / 100) s ++ [100]) (y ++ [ye])) with (combine (0 :: map (fun v => v / 100) s ++ [100]) (y0 :: y ++ [ye])).
  set (xs := 0 :: map (fun v => v / 100) s ++ [100]). assert (LX : length xs = (length s + 2)%nat) by (unfold xs; cbn [length]; rewrite app_length, map_length; cbn; lia).
  assert (LY : length (y0 :: y ++ [ye]) = (length s + 2)%nat) by (cbn [length]; rewrite app_length; cbn; lia).
  intros k Hk. rewrite combine_length, LX, LY, Nat.min_id in Hk. rewrite !combine_nth by lia. cbn [fst].
  assert (XS : forall j, (j < length s)%nat -> nth (S j) xs 0 = nth j s 0 / 100).
  { intros j Hj. unfold xs. cbn [nth]. rewrite app_nth1 by (rewrite map_length; exact Hj). apply (map_nth' (fun v => v / 100) s j 0 0 Hj). }
  assert (XE : nth (S (length s)) xs 0 = 100) by (unfold xs; cbn [nth]; rewrite app_nth2 by (rewrite map_length; lia); rewrite map_length, Nat.sub_diag; reflexivity).
  assert (IN : forall j, (j < length s)%nat -> 0 < nth j s 0 < 10000) by (intros j Hj; rewrite Forall_forall in F; apply F, nth_In, Hj).
  destruct k as [|k].
  - change (nth 0 xs 0) with 0. destruct (Nat.eq_dec (length s) 0) as [E|E]; [rewrite E in XE; rewrite XE; lra|]. rewrite XS by lia. specialize (IN 0%nat ltac:(lia)). lra.
  - rewrite XS by lia. destruct (Nat.eq_dec (S k) (length s)) as [E|E].
    + rewrite E, XE. specialize (IN k ltac:(lia)). lra.
    + rewrite XS by lia. specialize (M k ltac:(lia)). lra.
Qed.

Lemma ival_curves cm r z e : cmat_wf cm -> (0 < z)%Z -> material r = IZR z -> (4 * Z.to_nat z <= length (cm_cols cm))%nat -> (1 <= cm_n cm)%nat -> good_curve cm (Z.to_nat z) ->
  exists c, layer_curve cm r = Ok c /\ curve_point cm r e (Gmax r * ival (table_G c) e, ival (table_D c) e) /\
    0 < ival (table_G c) e <= 1 /\ xi0 r <= ival (table_D c) e.
Proof.
  intros Wf Hz Em Hc Hn GC. pose proof (layer_curve_ok cm r z Wf Hz Em Hc Hn) as LO. unfold good_curve in GC. unfold curve_point.
  destruct (columns cm (Z.to_nat z)) as [[sG g] [sD d]] eqn:EC. destruct LO as (EL & L1 & L2 & L3 & L4). destruct GC as (SG & SD & FG & FD).
  eexists. split; [exact EL|]. match type of EL with _ = Ok ?x => set (c := x) in * end.
  assert (TG : table_G c = (0, 1) :: combine (map (fun v => v / 100) sG) g ++ [(100, Rmin (1 / 10000) (last g 0))]).
  { unfold table_G, c. cbn [ec_sG ec_G combine]. f_equal. apply combine_app'. rewrite map_length. lia. }
  assert (NG : g <> []) by (intros E; rewrite E in L2; cbn in L2; lia). assert (ND : d <> []) by (intros E; rewrite E in L4; cbn in L4; lia).
  set (h := hd 0 d) in *.
  assert (TD : table_D c = map (fun p => (fst p, / 100 * snd p + (xi0 r - h / 100))) ((0, h) :: combine (map (fun v => v / 100) sD) d ++ [(100, last d 0)])).
  { unfold table_D, c. cbn [ec_sD ec_D combine]. rewrite map_map. set (f := fun x => x / 100 - h / 100 + nth 0 (r_rest r) 0).
    assert (Hh : hd 0 (map f d) = f h) by (destruct d; [congruence|reflexivity]). assert (HL : last (map f d) 0 = f (last d 0)).
    { destruct (exists_last ND) as (d' & x & ->). rewrite map_app. cbn [map]. rewrite !last_last. reflexivity. }
    rewrite Hh, HL. change (fun x => x / 100 - h / 100 + nth 0 (r_rest r) 0) with f. cbn [map fst snd]. rewrite map_app. cbn [map fst snd].
    assert (FE : forall x, / 100 * x + (xi0 r - h / 100) = f x) by (intros x; unfold f, xi0; lra). rewrite !FE. f_equal. rewrite combine_app' by (rewrite !map_length; lia). f_equal.
    assert (CM : forall (l dd : list R), combine l (map f dd) = map (fun p => (fst p, / 100 * snd p + (xi0 r - h / 100))) (combine l dd)).
    { induction l as [|u l IH]; intros [|v dd]; cbn [combine map]; try reflexivity. cbn [fst snd]. rewrite FE. f_equal. apply IH. }
    apply CM. }
  assert (IG : incr (table_G c)) by (rewrite TG; apply incr_table; [exact SG|lia]).
  assert (ID : incr ((0, h) :: combine (map (fun v => v / 100) sD) d ++ [(100, last d 0)])) by (apply incr_table; [exact SD|lia]).
  assert (ID' : incr (table_D c)).
  { rewrite TD. intros k Hk. rewrite map_length in Hk. rewrite !(map_nth' (fun p => (fst p, / 100 * snd p + (xi0 r - h / 100))) _ _ (0, 0) (0, 0)) by lia. cbn [fst]. apply ID, Hk. }
  pose proof (ival_pl (table_G c) e IG ltac:(rewrite TG; discriminate)) as PG. pose proof (ival_pl (table_D c) e ID' ltac:(rewrite TD; discriminate)) as PD.
  set (y := ival (table_G c) e) in *. set (x' := ival (table_D c) e) in *. clearbody y x'. rewrite TG in PG. rewrite TD in PD.
  assert (LG : 0 < last g 0 <= 1). { destruct (exists_last NG) as (g' & w & ->). rewrite last_last. rewrite Forall_forall in FG. apply FG. apply in_or_app. right. left. reflexivity. }
  split; [|split].
  - exists z. split; [exact Em|]. rewrite EC. destruct (pl_affine _ _ _ _ _ PD) as (x & Px & Ex). exists y, x. split; [exact PG|]. split; [reflexivity|]. split; [exact Px|]. cbn [snd]. fold h. rewrite Ex. lra.
  - assert (B : exists lo, 0 < lo /\ Forall (fun p => lo <= snd p <= 1) ((0, 1) :: combine (map (fun v => v / 100) sG) g ++ [(100, Rmin (1 / 10000) (last g 0))])).
    { assert (BG : exists lo, 0 < lo <= 1 /\ Forall (fun x => lo <= x <= 1) g).
      { clear - FG. induction FG as [|v g [V1 V2] _ (lo & [L1 L2] & F)]; [exists 1; split; [lra|constructor]|]. exists (Rmin v lo). pose proof (Rmin_l v lo). pose proof (Rmin_r v lo).
        split; [split; [apply Rmin_glb_lt; assumption|lra]|]. constructor; [lra|]. eapply Forall_impl; [|exact F]. cbn. intros q Hq. lra. }
      destruct BG as (lo & HL & F). exists (Rmin lo (Rmin (1 / 10000) (last g 0))). assert (M0 : 0 < Rmin (1 / 10000) (last g 0)) by (apply Rmin_glb_lt; lra).
      pose proof (Rmin_l lo (Rmin (1 / 10000) (last g 0))). pose proof (Rmin_r lo (Rmin (1 / 10000) (last g 0))). pose proof (Rmin_l (1 / 10000) (last g 0)).
      split; [apply Rmin_glb_lt; lra|]. constructor; [cbn [snd]; lra|]. apply Forall_app. split; [|constructor; [cbn [snd]; lra|constructor]].
      apply Forall_forall. intros [u v] I. apply in_combine_r in I. rewrite Forall_forall in F. specialize (F v I). cbn [snd]. lra. }
    destruct B as (lo & L0 & F). pose proof (pl_bounds _ _ _ lo 1 PG F). lra.
  - destruct (pl_affine _ _ _ _ _ PD) as (x & Px & Ex). rewrite Ex.
    assert (B : exists hi, Forall (fun p => h <= snd p <= hi) ((0, h) :: combine (map (fun v => v / 100) sD) d ++ [(100, last d 0)])).
    { assert (BD : exists hi, h <= hi /\ Forall (fun x => x <= hi) d).
      { assert (BB : forall dd, exists hi, h <= hi /\ Forall (fun x => x <= hi) dd); [|apply BB]. induction dd as [|v dd (hi & H1 & F)]; [exists h; split; [lra|constructor]|]. exists (Rmax v hi). pose proof (Rmax_l v hi). pose proof (Rmax_r v hi). split; [lra|]. constructor; [lra|]. eapply Forall_impl; [|exact F]. cbn. intros q Hq. lra. }
      destruct BD as (hi & H1 & F). exists hi. rewrite Forall_forall in F, FD. constructor; [cbn [snd]; lra|]. apply Forall_app. split.
      - apply Forall_forall. intros [u v] I. apply in_combine_r in I. cbn [snd]. split; [apply FD, I|apply F, I].
      - constructor; [|constructor]. cbn [snd]. destruct (exists_last ND) as (d' & w & Ed). rewrite Ed, last_last. assert (I : In w d) by (rewrite Ed; apply in_or_app; right; left; reflexivity). split; [apply FD, I|apply F, I]. }
    destruct B as (hi & F). pose proof (pl_bounds _ _ _ h hi Px F). lra.
Qed.

(** *** Equivalent profiles *)
Definition eq_row (r : row) (gd : R * R) : row := mkrow (r_h r) (sqrt (fst gd / nth 1 (r_rest r) 0)) (snd gd :: tl (r_rest r)).
Definition equivalent (p : list row) (st : moduli) : list row := map (fun q => eq_row (fst q) (snd q)) (combine p st).
Definition good_state (p : list row) (st : moduli) : Prop :=
  length st = length p /\ forall k, (k < length p)%nat ->
    let r := nth k p row0 in let gd := nth k st (0, 0) in 0 < fst gd <= Gmax r /\ xi0 r <= snd gd.

Lemma rest1 (x : R) l : nth 1 (x :: tl l) 0 = nth 1 l 0.
Proof. destruct l as [|a [|c l]]; reflexivity. Qed.
Lemma eq_lays p st : map lay_of_row (equivalent p st) = with_moduli p st.
Proof. unfold equivalent, with_moduli. rewrite map_map. apply map_ext. intros [r gd]. unfold lay_of_row, eq_row. cbn [fst snd r_h r_vs r_rest]. rewrite rest1. reflexivity. Qed.
Lemma equivalent_length p st : length st = length p -> length (equivalent p st) = length p.
Proof. intros L. unfold equivalent. rewrite map_length, combine_length. lia. Qed.
Lemma equivalent_nth p st k : length st = length p -> (k < length p)%nat -> nth k (equivalent p st) row0 = eq_row (nth k p row0) (nth k st (0, 0)).
Proof. intros L H. unfold equivalent. rewrite (map_nth' _ _ k (row0, (0, 0))) by (rewrite combine_length; lia). rewrite combine_nth by lia. reflexivity. Qed.
Lemma equivalent_h p st : length st = length p -> map r_h (equivalent p st) = map r_h p.
Proof.
  intros L. unfold equivalent. rewrite map_map. unfold eq_row. cbn [r_h]. revert st L. induction p as [|r p IH]; intros [|m st] L; try discriminate; [reflexivity|]. cbn [combine map fst snd]. f_equal. apply IH. cbn in L. lia.
Qed.
Lemma soil_nth p k : Forall soil p -> (k < length p)%nat -> 0 < nth 1 (r_rest (nth k p row0)) 0 /\ 0 < r_vs (nth k p row0) /\ 0 < xi0 (nth k p row0) /\ 0 <= r_h (nth k p row0) /\ 0 < Gmax (nth k p row0).
Proof.
  intros F H. rewrite Forall_forall in F. destruct (F _ (nth_In p row0 H)) as [(V & Rh & _ & Hh) X]. unfold lay_of_row in *. cbn [l_vs l_rho l_xi l_h] in *.
  unfold xi0. repeat (split; [assumption|]). unfold Gmax. apply Rmult_lt_0_compat; [exact Rh|]. apply pow_lt, V.
Qed.
Lemma eq_elays p st : Forall soil p -> good_state p st -> map elay_of (equivalent p st) = elays p st.
Proof.
  intros F [L GS]. apply (nth_ext _ _ elay0 elay0); [rewrite map_length, elays_length, equivalent_length by exact L; reflexivity|].
  intros k Hk. rewrite map_length, equivalent_length in Hk by exact L. rewrite (map_nth' elay_of _ k row0) by (rewrite equivalent_length by exact L; exact Hk).
  rewrite equivalent_nth by assumption. rewrite elays_nth by assumption. cbv zeta. unfold elay_of, eq_row. cbn [r_h r_vs r_rest]. rewrite rest1.
  destruct (soil_nth p k F Hk) as (Hr & _). destruct (GS k Hk) as [[G0 _] _]. f_equal.
  set (rho := nth 1 (r_rest (nth k p row0)) 0) in *. cbn [pow]. rewrite Rmult_1_r. rewrite sqrt_sqrt by (apply Rlt_le, Rdiv_lt_0_compat; assumption). field. lra.
Qed.
Lemma column_nth ls : column ls <-> (ls <> [] /\ (forall k, (k < length ls)%nat -> let l := nth k ls (mklay 0 0 0 0) in phys l /\ 0 < l_xi l /\ ((S k < length ls)%nat -> 0 < l_h l))).
Proof.
  split.
  - intros (init & lst & -> & F & P & X). split; [destruct init; discriminate|]. intros k Hk l. rewrite app_length in Hk. cbn [length] in Hk. unfold l.
    destruct (Nat.lt_ge_cases k (length init)) as [H|H].
    + rewrite app_nth1 by exact H. rewrite Forall_forall in F. destruct (F _ (nth_In init (mklay 0 0 0 0) H)) as (A & B & D). auto.
    + replace k with (length init) by lia. rewrite app_nth2 by lia. rewrite Nat.sub_diag. cbn [nth]. split; [exact P|]. split; [exact X|]. rewrite app_length. cbn. lia.
  - intros [N H]. destruct (exists_last N) as (init & lst & ->). exists init, lst. split; [reflexivity|]. rewrite app_length in H. cbn [length] in H. split.
    + apply Forall_forall. intros l I. destruct (In_nth _ _ (mklay 0 0 0 0) I) as (k & Hk & E). specialize (H k ltac:(lia)). cbv zeta in H. rewrite app_nth1 in H by exact Hk. rewrite E in H.
      destruct H as (A & B & D). split; [exact A|]. split; [exact B|]. apply D. lia.
    + specialize (H (length init) ltac:(lia)). cbv zeta in H. rewrite app_nth2 in H by lia. rewrite Nat.sub_diag in H. cbn [nth] in H. destruct H as (A & B & _). auto.
Qed.
Lemma lay_of_row0 : lay_of_row row0 = mklay 0 0 0 0.
Proof. reflexivity. Qed.
Lemma runs_equivalent s p b st : runs s p b -> good_state p st -> runs s (equivalent p st) b.
Proof.
  intros (L & Cl & So & HB & NP) G. pose proof G as [Ls GS]. pose proof (equivalent_length p st Ls) as LE.
  assert (PH : forall k, (k < length p)%nat -> phys (lay_of_row (nth k (equivalent p st) row0)) /\ 0 < l_xi (lay_of_row (nth k (equivalent p st) row0))).
  { intros k Hk. rewrite equivalent_nth by assumption. destruct (soil_nth p k So Hk) as (H1 & H2 & H3 & H4 & _). destruct (GS k Hk) as [[G0 _] HD].
    unfold phys, lay_of_row, eq_row. cbn [l_vs l_rho l_xi l_h r_h r_vs r_rest nth]. change (nth 0 (tl (r_rest (nth k p row0))) 0) with (nth 1 (snd (nth k st (0,0)) :: tl (r_rest (nth k p row0))) 0). rewrite rest1.
    split; [|lra]. split; [apply sqrt_lt_R0, Rdiv_lt_0_compat; assumption|]. split; [exact H1|]. split; [lra|exact H4]. }
  split; [exact L|]. split; [|split; [|split; [intros E; rewrite LE; apply HB, E|lia]]].
  - apply column_nth. rewrite map_length, LE. split; [intros E; apply (f_equal (@length lay)) in E; rewrite map_length, LE in E; cbn in E; lia|].
    intros k Hk. cbv zeta. rewrite <- lay_of_row0. rewrite map_nth. destruct (PH k Hk) as [P1 P2]. split; [exact P1|]. split; [exact P2|]. intros HS.
    rewrite equivalent_nth by assumption. cbn [lay_of_row eq_row l_h r_h].
    destruct (proj1 (column_nth _) Cl) as [_ C]. rewrite map_length in C. destruct (C k Hk) as (_ & _ & C'). rewrite <- lay_of_row0 in C'. rewrite map_nth in C'. apply C', HS.
  - apply Forall_forall. intros r I. destruct (In_nth _ _ row0 I) as (k & Hk & <-). rewrite LE in Hk. apply PH, Hk.
Qed.
Lemma pad_padded s dt : (2 <= length s)%nat -> padded (pad s dt) = padded s /\ Nat.even (length (pad s dt)) = false /\ (2 <= length (pad s dt))%nat.
Proof.
  intros L. unfold pad. destruct (Nat.even (length s)) eqn:Ev; [|auto].
  assert (E2 : Nat.even (length (s ++ [(last (times s) 0 + dt, last (vals s) 0)])) = false).
  { rewrite app_length. cbn [length]. rewrite Nat.add_1_r, Nat.even_succ. unfold Nat.odd. rewrite Ev. reflexivity. }
  split; [|split; [exact E2|rewrite app_length; lia]]. unfold padded. rewrite E2, Ev. unfold vals. rewrite map_app. reflexivity.
Qed.

(** ** The full account of a run *)
Section Account.
  Variables (t : table) (s : signal) (cm : cmat) (b : boundary) (Rg : R) (p : list row) (cs : list ecurve) (dt : R).
  Hypothesis Wc : cmat_wf cm.
  Hypothesis V : valid_table t.
  Hypothesis C5 : t_ncol t = 5%nat.
  Variables (init : list (list R)) (lst : list R).
  Hypothesis Er : t_rows t = init ++ [lst].
  Hypothesis Z0 : cell 0 lst = 0.
  Hypothesis ES : stratify (map row_of (t_rows t)) = Ok p.
  Hypothesis RN : runs s p b.
  Hypothesis P2 : (2 <= length p)%nat.
  Hypothesis ECS : map_res (layer_curve cm) (removelast p) = Ok cs.
  Hypothesis Hn : (1 <= cm_n cm)%nat.
  Hypothesis HC : forall x z, In x init -> cell 4 x = IZR z -> (4 * Z.to_nat z <= length (cm_cols cm))%nat.
  Hypothesis GC : forall x z, In x init -> cell 4 x = IZR z -> good_curve cm (Z.to_nat z).
  Let tr j := traj p cs b dt (run_A s) Rg j (initial p).

  Lemma renewed_point st k : (S k < length p)%nat ->
    curve_point cm (nth k p row0) (eff_of p b dt (run_A s) Rg st k) (renewed p cs b dt (run_A s) Rg st k) /\
    0 < fst (renewed p cs b dt (run_A s) Rg st k) <= Gmax (nth k p row0) /\ xi0 (nth k p row0) <= snd (renewed p cs b dt (run_A s) Rg st k).
  Proof.
    intros Hk. destruct (strat_materials t p init lst V C5 Er Z0 ES) as [SM _].
    assert (Hr : (k < length (removelast p))%nat) by (rewrite removelast_length; lia).
    pose proof (nth_In (removelast p) row0 Hr) as I. rewrite nth_removelast in I by lia. destruct (SM _ I) as (x & Ix & Ex).
    destruct (table_materials t init lst x V C5 Er Ix) as (z & E4 & Hz & E2). assert (Em : material (nth k p row0) = IZR z) by (unfold material; rewrite Ex; exact E2).
    destruct (ival_curves cm (nth k p row0) z (eff_of p b dt (run_A s) Rg st k) Wc Hz Em (HC x z Ix E4) Hn (GC x z Ix E4)) as (c & EC & CP & [B1 B2] & B3).
    pose proof (map_res_nth _ _ cs k row0 ec0 ECS Hr) as EK. rewrite nth_removelast in EK by lia. rewrite EC in EK. injection EK as EK.
    unfold renewed. rewrite <- EK. cbn [fst snd]. change (e_G (elay_of (nth k p row0))) with (Gmax (nth k p row0)). destruct RN as (_ & _ & So & _).
    destruct (soil_nth p k So ltac:(lia)) as (_ & _ & _ & _ & Gm). split; [exact CP|]. split; [|exact B3]. split; [apply Rmult_lt_0_compat; assumption|nra].
  Qed.

  Lemma tr_length j : length (tr j) = length p.
  Proof.
    destruct RN as (_ & _ & _ & HB & NP). assert (NN : p <> []) by (intros E; rewrite E in NP; cbn in NP; lia).
    apply (traj_length p cs b false [] dt (run_A s) Rg NN); [pose proof (map_res_length _ _ _ ECS) as X; rewrite removelast_length in X; exact X|exact HB|apply initial_length].
  Qed.
  Lemma tr_next j k : (S k < length p)%nat -> nth k (tr (S j)) (0, 0) = renewed p cs b dt (run_A s) Rg (tr j) k.
  Proof. intros H. change (tr (S j)) with (next_st p cs b dt (run_A s) Rg (tr j)). unfold next_st. rewrite app_nth1 by (rewrite map_length, seq_length; lia). rewrite nth_seq_map by lia. reflexivity. Qed.
  Lemma tr_last j : nth (length p - 1) (tr j) (0, 0) = nth (length p - 1) (tr 0) (0, 0).
  Proof.
    induction j as [|j IH]; [reflexivity|]. rewrite <- IH. change (tr (S j)) with (next_st p cs b dt (run_A s) Rg (tr j)). unfold next_st.
    rewrite app_nth2 by (rewrite map_length, seq_length; lia). rewrite map_length, seq_length, Nat.sub_diag. cbn [nth].
    assert (N0 : tr j <> []) by (intros E; pose proof (tr_length j) as X; rewrite E in X; cbn in X; lia). destruct (exists_last N0) as (l & x & E). pose proof (tr_length j) as X. rewrite E in *. rewrite app_length in X. cbn [length] in X.
    rewrite last_last, app_nth2 by lia. replace (length p - 1 - length l)%nat with 0%nat by lia. reflexivity.
  Qed.
  Lemma tr_0 k : (k < length p)%nat -> nth k (tr 0) (0, 0) = (Gmax (nth k p row0), xi0 (nth k p row0)).
  Proof. intros H. change (tr 0) with (initial p). unfold initial. rewrite (map_nth' _ p k row0) by exact H. reflexivity. Qed.
  Lemma tr_good j : good_state p (tr j).
  Proof.
    split; [apply tr_length|]. intros k Hk. cbv zeta. destruct RN as (_ & _ & So & _). destruct (soil_nth p k So Hk) as (_ & _ & _ & _ & Gm).
    assert (B0 : 0 < fst (nth k (tr 0) (0, 0)) <= Gmax (nth k p row0) /\ xi0 (nth k p row0) <= snd (nth k (tr 0) (0, 0))) by (rewrite tr_0 by exact Hk; cbn [fst snd]; lra).
    destruct j as [|j]; [exact B0|]. destruct (Nat.eq_dec k (length p - 1)) as [->|E]; [rewrite tr_last; exact B0|]. rewrite tr_next by lia. apply renewed_point. lia.
  Qed.

  Lemma stable_settled tol j : all_settled tol (tr j) (tr (S j)) = true <-> stable tol (tr j) (tr (S j)).
  Proof.
    assert (S1 : forall o n, 0 < n -> (settled tol o n = true <-> Rabs (o - n) < tol * n)).
    { intros o n Hn0. unfold settled. rewrite (proj2 (Reqb_false n 0)) by lra. cbn [negb andb]. split.
      - intros E. destruct (Rltb_spec (Rabs (o - n) / n) tol) as [H|H]; [|discriminate]. apply (Rmult_lt_compat_r n) in H; [|exact Hn0]. unfold Rdiv in H. rewrite Rmult_assoc, Rinv_l in H by lra. lra.
      - intros H. destruct (Rltb_spec (Rabs (o - n) / n) tol) as [H1|H1]; [reflexivity|]. exfalso. apply Rnot_lt_le in H1. apply (Rmult_le_compat_r n) in H1; [|lra]. unfold Rdiv in H1. rewrite Rmult_assoc, Rinv_l in H1 by lra. lra. }
    pose proof (tr_length j) as L1. pose proof (tr_length (S j)) as L2.
    assert (Pp : forall i k, (k < length p)%nat -> 0 < fst (nth k (tr i) (0, 0)) /\ 0 < snd (nth k (tr i) (0, 0))).
    { intros i k Hk. destruct (tr_good i) as [_ G]. destruct (G k Hk) as [[A _] B]. destruct RN as (_ & _ & So & _). destruct (soil_nth p k So Hk) as (_ & _ & X & _). lra. }
    assert (LR : length (combine (removelast (tr j)) (removelast (tr (S j)))) = (length p - 1)%nat) by (rewrite combine_length, !removelast_length; lia).
    assert (NR : forall k, (S k < length p)%nat -> nth k (combine (removelast (tr j)) (removelast (tr (S j)))) ((0, 0), (0, 0)) = (nth k (tr j) (0, 0), nth k (tr (S j)) (0, 0))).
    { intros k Hk. rewrite combine_nth by (rewrite !removelast_length; lia). rewrite !nth_removelast by lia. reflexivity. }
    unfold all_settled. rewrite forallb_forall. unfold stable. rewrite L1. split.
    - intros H k Hk. assert (I : In (nth k (tr j) (0, 0), nth k (tr (S j)) (0, 0)) (combine (removelast (tr j)) (removelast (tr (S j))))) by (rewrite <- NR by exact Hk; apply nth_In; rewrite LR; lia).
      specialize (H _ I). cbn [fst snd] in H. apply andb_true_iff in H as [H1 H2]. destruct (Pp (S j) k ltac:(lia)). split; apply S1; assumption.
    - intros H q I. destruct (In_nth _ _ ((0, 0), (0, 0)) I) as (k & Hk & E). rewrite LR in Hk. rewrite NR in E by lia. subst q. cbn [fst snd]. destruct (H k ltac:(lia)) as [H1 H2]. destruct (Pp (S j) k ltac:(lia)).
      apply andb_true_iff. split; apply S1; assumption.
  Qed.

  Lemma eq_fields i j : let r := eq_outcome s p (tr i) (tr j) dt b in let q := outcome s (equivalent p (tr i)) dt b in
    sr_a r = sr_a q /\ sr_v r = sr_v q /\ sr_d r = sr_d q /\ sr_gamma r = sr_gamma q /\ sr_freq r = sr_freq q /\ sr_tf r = sr_tf q /\ sr_max_avd r = sr_max_avd q.
  Proof.
    intros r q. destruct RN as (_ & _ & So & _). unfold r, q. cbn [sr_a sr_v sr_d sr_gamma sr_freq sr_tf sr_max_avd eq_outcome outcome].
    rewrite (eq_elays p (tr i) So (tr_good i)), equivalent_length, equivalent_h by apply tr_length. repeat split; reflexivity.
  Qed.
End Account.

(** What a run does: from the moduli and dampings of the profile, [m] passes, each the
    linear response of the column with the current moduli to the record (completed to an
    odd length), after which every soil layer takes the point of its curves at [Rg] times
    its peak strain and the rock is left alone. *)
Definition pass (s : signal) (cm : cmat) (b : boundary) (Rg dt : R) (p : list row) (st st' : moduli) : Prop :=
  exists q, shaken (pad s dt) dt b (with_moduli p st) (sr_a q) /\ kinematic (pad s dt) dt q /\ map r_h (sr_profile q) = map r_h p /\
    length st' = length p /\
    (forall k, (S k < length p)%nat -> exists pk, is_peak (nth k (sr_gamma q) []) pk /\ curve_point cm (nth k p row0) (Rg * pk) (nth k st' (0, 0))) /\
    nth (length p - 1) st' (0, 0) = nth (length p - 1) st (0, 0).

(** The returned profile is the layered one with the last dampings; the stresses come
    from the last moduli, the motions and the transfer function from those before. *)
Theorem C55_passes : forall t s cm b tol Rg max_iter vb r dt, table_wf t -> cmat_wf cm -> good_curves t cm ->
  equiv_linear t s cm b tol Rg max_iter vb = Ok r -> first_step s = Ok dt -> 0 < dt ->
  exists p m st, stratify (map row_of (t_rows t)) = Ok p /\ (1 <= m <= Z.to_nat max_iter)%nat /\
    st 0%nat = map (fun r => (Gmax r, xi0 r)) p /\ (forall j, (j < m)%nat -> pass s cm b Rg dt p (st j) (st (S j))) /\
    (forall j, (j <= m)%nat -> good_state p (st j)) /\
    (shaken s dt b (with_moduli p (st (m - 1)%nat)) (sr_a r) /\ kinematic s dt r /\
       reports_tf s dt b (with_moduli p (st (m - 1)%nat)) (sr_freq r) (sr_tf r)) /\
    (length (sr_profile r) = length p /\ forall k, (k < length p)%nat ->
       nth k (sr_profile r) row0 = let x := nth k p row0 in mkrow (r_h x) (r_vs x) (snd (nth k (st m) (0, 0)) :: tl (r_rest x))) /\
    (Nat.Odd (length s) -> forall k, (S k < length p)%nat ->
       let X := dft (map RtoC (nth k (sr_gamma r) [])) in let Y := dft (map RtoC (nth k (sr_tau r) [])) in
       let G := RtoC (fst (nth k (st m) (0, 0))) in let D := RtoC (snd (nth k (st m) (0, 0))) in
       nth 0 Y (RtoC 0) = Cmult G (nth 0 X (RtoC 0)) /\
       forall i, (0 < i)%nat -> (2 * i < length s)%nat -> nth i Y (RtoC 0) = Cmult (Cmult G (Cplus (RtoC 1) (Cmult (RtoC 2) (Cmult Ci D)))) (nth i X (RtoC 0))) /\
    (vb = false -> m = Z.to_nat max_iter) /\
    (vb = true -> (forall j, (S j < m)%nat -> ~ stable tol (st j) (st (S j))) /\ ((m < Z.to_nat max_iter)%nat -> stable tol (st (m - 1)%nat) (st m))).
Proof.
  intros t s cm b tol Rg max_iter vb r dt Wf Wc GCv E ED Hd.
  assert (AC : eq_acceptable t s cm b max_iter) by (apply (C55_accepts_iff t s cm b tol Rg max_iter vb Wf Wc); eauto).
  destruct (eq_run t s cm b tol Rg max_iter vb Wc AC) as (dt' & p & cs & m & ED' & ES & RN & P2 & ECS & Hm & EQ & F1 & F2). rewrite ED in ED'. injection ED' as <-.
  destruct AC as ((V & C5 & L & init & lst & Er & Z & HB) & _ & _ & Hn & HC). unfold good_curves in GCv. rewrite Er, removelast_last in HC, GCv.
  pose proof RN as (_ & Cl0 & So & HB' & NP). set (tr := fun j => traj p cs b dt (run_A s) Rg j (initial p)) in *.
  pose proof (tr_good t s cm b Rg p cs dt Wc V C5 init lst Er Z ES RN P2 ECS Hn HC GCv) as TG. fold tr in TG.
  pose proof (tr_length t s cm b Rg p cs dt C5 RN P2 ECS Hn) as TL. fold tr in TL.
  pose proof (eq_fields t s cm b Rg p cs dt Wc V C5 init lst Er Z ES RN P2 ECS Hn HC GCv (m - 1) m) as EF. cbv beta zeta in EF.
  change (traj p cs b dt (run_A s) Rg (m - 1) (initial p)) with (tr (m - 1)%nat) in EF. change (traj p cs b dt (run_A s) Rg m (initial p)) with (tr m) in EF. destruct EF as (Ea & Ev' & Edd & Eg & Ef & Et & _).
  rewrite E in EQ. injection EQ as ->. change (eq_outcome s p (traj p cs b dt (run_A s) Rg (m - 1) (initial p)) (traj p cs b dt (run_A s) Rg m (initial p)) dt b) with (eq_outcome s p (tr (m - 1)%nat) (tr m) dt b) in *.
  assert (RE : forall s' j, runs s' p b -> runs s' (equivalent p (tr j)) b) by (intros s' j H; apply runs_equivalent; [exact H|apply TG]).
  exists p, m, tr. split; [exact ES|]. split; [exact Hm|]. split; [reflexivity|]. split; [|split; [intros j _; apply TG|split; [|split; [|split; [|split]]]]].
  - intros j Hj. destruct (pad_padded s dt L) as (PD & PE & PL). assert (RP : runs (pad s dt) (equivalent p (tr j)) b) by (apply RE; repeat (split; [assumption|]); assumption).
    assert (RA : run_A (pad s dt) = run_A s) by (unfold run_A; rewrite PD; reflexivity). assert (RNN : run_N (pad s dt) = run_N s) by (unfold run_N; rewrite PD; reflexivity).
    exists (outcome (pad s dt) (equivalent p (tr j)) dt b). split; [rewrite <- eq_lays; apply outcome_shaken; assumption|]. split; [apply outcome_kinematic, RP|].
    split; [apply equivalent_h, TL|]. split; [apply TL|]. split.
    + intros k Hk. exists (max_abs (gam_of (run_N s) dt (elays p (tr j)) b (run_A s) k)).
      assert (EGk : nth k (sr_gamma (outcome (pad s dt) (equivalent p (tr j)) dt b)) [] = gam_of (run_N s) dt (elays p (tr j)) b (run_A s) k).
      { cbn [sr_gamma outcome]. rewrite equivalent_length by apply TL. rewrite nth_seq_map by lia. rewrite PE. cbn [trim]. rewrite RA, RNN, (eq_elays p (tr j) So (TG j)). reflexivity. }
      rewrite EGk. split.
      * apply max_abs_peak. intros EE. apply (f_equal (@length R)) in EE. rewrite gam_length in EE by exact L. destruct (run_N_spec s L) as (_ & _ & N3). cbn in EE. lia.
      * pose proof (tr_next t s cm b Rg p cs dt C5 P2 Hn j k Hk) as TN. fold tr in TN. rewrite TN.
        pose proof (renewed_point t s cm b Rg p cs dt Wc V C5 init lst Er Z ES RN P2 ECS Hn HC GCv (tr j) k Hk) as (CP & _). unfold eff_of in CP. rewrite run_A_length in CP. exact CP.
    + pose proof (tr_last t s cm b Rg p cs dt C5 RN P2 ECS Hn) as TLst. fold tr in TLst. rewrite TLst. symmetry. apply TLst.
  - split; [|split].
    + rewrite Ea, <- eq_lays. apply outcome_shaken; [apply RE, RN|exact Hd].
    + pose proof (outcome_kinematic s (equivalent p (tr (m - 1)%nat)) b dt (RE s (m - 1)%nat RN)) as K. unfold kinematic in *. cbv zeta in *.
      change (sr_profile (outcome s (equivalent p (tr (m - 1)%nat)) dt b)) with (equivalent p (tr (m - 1)%nat)) in K. rewrite <- Ea, <- Ev', <- Edd, <- Eg in K.
      change (sr_profile (eq_outcome s p (tr (m - 1)%nat) (tr m) dt b)) with (set_damping p (tr m)).
      assert (LS : length (set_damping p (tr m)) = length p) by (unfold set_damping; rewrite map_length, combine_length, TL; lia).
      rewrite equivalent_length in K by apply TL. rewrite LS. destruct K as (K1 & K2 & K3). split; [exact K1|]. split; [exact K2|]. intros k i Hk Hi. rewrite (K3 k i Hk Hi). f_equal.
      transitivity (nth k (map r_h p) 0).
      * rewrite <- (equivalent_h p (tr (m - 1)%nat)) by apply TL. symmetry. apply (map_nth r_h _ (mkrow 0 0 [])).
      * rewrite <- (set_damping_h p (tr m)) by apply TL. apply (map_nth r_h _ (mkrow 0 0 [])).
    + rewrite Ef, Et, <- eq_lays. apply outcome_tf; [apply RE, RN|exact Hd].
  - cbn [sr_profile eq_outcome]. split; [unfold set_damping; rewrite map_length, combine_length, TL; lia|]. intros k Hk. unfold set_damping.
    rewrite (map_nth' _ _ k (row0, (0, 0))) by (rewrite combine_length, TL; lia). rewrite combine_nth by (symmetry; apply TL). reflexivity.
  - intros OT k Hk X Y G D. destruct (run_N_spec s L) as (O & EN & N3).
    assert (Ev : Nat.even (length s) = false). { destruct (Nat.even (length s)) eqn:Ev; [|reflexivity]. apply Nat.even_spec in Ev. destruct OT as [a Ha], Ev as [c Hc]. lia. }
    rewrite Ev in EN. unfold X, Y. cbn [sr_gamma sr_tau eq_outcome]. rewrite !nth_seq_map by lia. rewrite Ev. cbn [trim].
    set (g := gam_of _ _ _ _ _ k). assert (Lg : length g = length s) by (rewrite <- EN; apply gam_length, L). rewrite <- Lg.
    rewrite elays_nth by (try apply TL; lia). apply (stress_spectrum (mkelay (r_h (nth k p row0)) (fst (nth k (tr m) (0, 0))) (snd (nth k (tr m) (0, 0))) (nth 1 (r_rest (nth k p row0)) 0)) g). rewrite Lg. exact OT.
  - exact F1.
  - intros EV. destruct (F2 EV) as [G1 G2]. pose proof (stable_settled t s cm b Rg p cs dt Wc V C5 init lst Er Z ES RN P2 ECS Hn HC GCv tol) as SS. fold tr in SS. split.
    + intros j Hj ST. apply SS in ST. specialize (G1 (S j) ltac:(lia)). replace (S j - 1)%nat with j in G1 by lia. change (all_settled tol (tr j) (tr (S j)) = false) in G1. congruence.
    + intros Hlt. specialize (G2 Hlt). replace m with (S (m - 1)) at 2 by lia. apply SS. replace (S (m - 1)) with m by lia. exact G2.
Qed.
