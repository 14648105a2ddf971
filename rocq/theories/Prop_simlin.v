(** C24, C25, C56: every-layer linear simulation. *)
From Coq Require Import Reals List Bool ZArith Lia Lra Psatz.
From Coquelicot Require Import Coquelicot.
From Coq Require Import List.
From Verif Require Import Base M_generic P_generic M_profile P_profile Prop_profile M_vs_profile P_vs_profile M_motion M_interp P_interp M_dft P_dft M_spectra P_spectra M_linear P_linear Prop_linear M_simlin P_simlin.
Import ListNotations.
Open Scope R_scope.

(** ** The re-discretised profile *)
Definition soil (r : row) : Prop := phys (lay_of_row r) /\ 0 < l_xi (lay_of_row r).

Lemma e_ok_row r : soil r -> e_ok (elay_of r).
Proof.
  intros ((V & Rh & X & Hh) & X1). unfold lay_of_row in *. cbn [l_vs l_rho l_xi l_h] in *. unfold e_ok, elay_of. cbn [e_G e_rho e_D e_h].
  split; [|auto]. apply Rmult_lt_0_compat; [exact Rh|apply pow_lt, V].
Qed.
Lemma as_lays p : Forall soil p -> Forall e_ok (map elay_of p) /\ map as_lay (map elay_of p) = map lay_of_row p.
Proof.
  intros F. split.
  - rewrite Forall_map. eapply Forall_impl; [|exact F]. intros r H. apply e_ok_row, H.
  - rewrite map_map. apply map_ext_in. intros r I. rewrite Forall_forall in F. destruct (F r I) as ((V & Rh & _) & _). apply as_lay_row; assumption.
Qed.

Lemma last_res_app {A} (l : list A) x : last_res (l ++ [x]) = Ok x.
Proof. unfold last_res. rewrite rev_app_distr. reflexivity. Qed.

Lemma good_soil last r : good_row true last r -> soil (row_of r) /\ (if last then 0 <= r_h (row_of r) else 0 < r_h (row_of r)).
Proof.
  intros (thk & vs & tl & -> & Ht & Hv & xi & rho & m & -> & X & Rh & _). unfold row_of, cell, soil, phys, lay_of_row. cbn. destruct last; repeat split; lra.
Qed.
Lemma concat_soil ps gs : Forall (fun r => soil r /\ 0 < r_h r) ps -> Forall2 subdivides ps gs ->
  Forall (fun r => soil r /\ 0 < r_h r) (concat gs) /\ (length ps <= length (concat gs))%nat.
Proof.
  intros F F2. induction F2 as [|r g ps gs HS F2 IH]; [split; [constructor|cbn; lia]|]. inversion F as [|? ? [[P X] H0] F']; subst.
  destruct (IH F') as [I1 I2]. destruct HS as (NE & HF & _). cbn [concat]. split.
  - apply Forall_app. split; [|exact I1]. eapply Forall_impl; [|exact HF]. cbn beta. intros s (E1 & E2 & H1 & H2).
    destruct P as (V & Rh & X0 & _). unfold soil, phys, lay_of_row in *. cbn in *. rewrite E1, E2. repeat split; try lra; assumption.
  - rewrite app_length. cbn [length]. destruct g; [congruence|cbn [length]; lia].
Qed.

(** What stratification returns for an acceptable five-column profile. *)
Lemma strat_ok t : valid_table t -> t_ncol t = 5%nat ->
  exists init lst p, t_rows t = init ++ [lst] /\ stratify (map row_of (t_rows t)) = Ok p /\ column (map lay_of_row p) /\ Forall soil p /\
    (length (t_rows t) <= length p)%nat /\
    exists pi pl, p = pi ++ [pl] /\ Forall (fun r => 0 < r_h r) pi /\ (r_h pl = 0 <-> cell 0 lst = 0) /\ (cell 0 lst = 0 -> (length pi = 0 <-> init = [])%nat).
Proof.
  intros (five & Ec & init & lst & Er & Fi & Gl) C5. destruct five; [|rewrite C5 in Ec; discriminate].
  exists init, lst.
  assert (FI : Forall (fun r => soil r /\ 0 < r_h r) (map row_of init)).
  { rewrite Forall_map. eapply Forall_impl; [|exact Fi]. intros r H. apply (good_soil false r H). }
  destruct (good_soil true lst Gl) as [SL HL].
  assert (EL : last_res (map row_of (init ++ [lst])) = Ok (row_of lst)) by (rewrite map_app; apply last_res_app).
  assert (COL : forall pi pl, Forall (fun r => soil r /\ 0 < r_h r) pi -> soil pl -> column (map lay_of_row (pi ++ [pl]))).
  { intros pi pl F1 [P1 X1]. rewrite map_app. eexists _, _. split; [reflexivity|]. split; [|split; assumption].
    rewrite Forall_map. eapply Forall_impl; [|exact F1]. intros r [[P X] H]. auto. }
  destruct (Req_dec (cell 0 lst) 0) as [Z|Z].
  - assert (Z' : r_h (row_of lst) = 0) by exact Z.
    assert (FR : Forall (fun r => 0 < r_h r /\ 0 < r_vs r) (removelast (map row_of (init ++ [lst])))).
    { rewrite map_app; cbn [map]; rewrite removelast_last. eapply Forall_impl; [|exact FI]. intros r [[(V & _) _] H]. auto. }
    destruct (C06_stratify_refines (map row_of (init ++ [lst])) (row_of lst) EL Z' FR) as (gs & ES & F2).
    rewrite map_app in F2; cbn [map] in F2; rewrite removelast_last in F2. destruct (concat_soil _ _ FI F2) as [CS CL].
    assert (SL' : soil (mkrow 0 (r_vs (row_of lst)) (r_rest (row_of lst)))).
    { destruct SL as [(V & Rh & X & _) X1]. unfold soil, phys, lay_of_row in *. cbn in *. repeat split; try assumption; lra. }
    exists (concat gs ++ [mkrow 0 (r_vs (row_of lst)) (r_rest (row_of lst))]). rewrite Er.
    split; [reflexivity|]. split; [exact ES|]. split; [apply COL; assumption|]. split; [|split].
    + apply Forall_app. split; [|constructor; [exact SL'|constructor]]. eapply Forall_impl; [|exact CS]. intros r H. apply H.
    + rewrite !app_length. rewrite map_length in CL. cbn [length]. lia.
    + eexists _, _. split; [reflexivity|]. split; [eapply Forall_impl; [|exact CS]; intros r H; apply H|]. cbn [r_h]. split; [split; intros _; [exact Z|reflexivity]|].
      intros _. rewrite map_length in CL. split; intros H.
      * destruct init; [reflexivity|]. cbn [length] in CL. lia.
      * subst init. cbn in F2. inversion F2. reflexivity.
  - assert (Z' : r_h (row_of lst) <> 0) by exact Z.
    assert (FA : Forall (fun r => soil r /\ 0 < r_h r) (map row_of (init ++ [lst]))).
    { rewrite map_app. apply Forall_app. split; [exact FI|]. constructor; [|constructor]. split; [exact SL|]. change (r_h (row_of lst)) with (cell 0 lst) in *. lra. }
    assert (FR : Forall (fun r => 0 < r_h r /\ 0 < r_vs r) (map row_of (init ++ [lst]))).
    { eapply Forall_impl; [|exact FA]. intros r [[(V & _) _] H]. auto. }
    destruct (C06_stratify_refines_no_halfspace _ _ EL Z' FR) as (gs & ES & F2). destruct (concat_soil _ _ FA F2) as [CS CL].
    rewrite map_length, app_length in CL. cbn [length] in CL.
    destruct (exists_last (l := concat gs)) as (pi & pl & EP); [intros E; rewrite E in CL; cbn in CL; lia|].
    exists (concat gs). rewrite Er. split; [reflexivity|]. split; [exact ES|]. rewrite EP in *. apply Forall_app in CS as [C1 C2]. inversion C2 as [|? ? [C3 C4] _]; subst.
    split; [apply COL; assumption|]. split; [|split].
    + apply Forall_app. split; [eapply Forall_impl; [|exact C1]; intros r H; apply H|constructor; [exact C3|constructor]].
    + rewrite !app_length in *. cbn [length] in *. lia.
    + eexists _, _. split; [reflexivity|]. split; [eapply Forall_impl; [|exact C1]; intros r H; apply H|]. split; [split; intros H; [lra|contradiction]|contradiction].
Qed.

(** ** The record *)

(** The record as transformed: one more sample, equal to the last one, when the
    number of samples is even. *)
Definition padded (s : signal) : list R := if Nat.even (length s) then vals s ++ [last (vals s) 0] else vals s.
Lemma pad_odd_length (x : list R) : (1 <= length x)%nat -> Nat.Odd (length (pad_odd x)) /\ length (pad_odd x) = (if Nat.even (length x) then S (length x) else length x).
Proof.
  intros H. unfold pad_odd. destruct (Nat.even (length x)) eqn:E.
  - rewrite app_length. cbn [length]. apply Nat.even_spec in E as [j Hj]. split; [exists j; lia|lia].
  - split; [|reflexivity]. apply Nat.odd_spec. rewrite <- Nat.negb_even, E. reflexivity.
Qed.
Lemma incident_padded s : pad_odd (incident s) = map (fun a => a / 2) (padded s).
Proof.
  unfold padded, pad_odd, incident. rewrite map_length. replace (length s) with (length (vals s)) by apply map_length. destruct (Nat.even (length (vals s))); [|reflexivity]. rewrite map_app. cbn [map]. do 2 f_equal.
  rewrite !last_nth_l, map_length. destruct (vals s) as [|a l] eqn:E; [cbn; field|]. rewrite (map_nth' _ _ _ 0) by (cbn [length]; lia). reflexivity.
Qed.
Lemma vals_length (s : signal) : length (vals s) = length s.
Proof. unfold vals. apply map_length. Qed.
Lemma times_length (s : signal) : length (times s) = length s.
Proof. unfold times. apply map_length. Qed.
Lemma first_step_ok (s : signal) : (exists dt, first_step s = Ok dt) <-> (2 <= length s)%nat.
Proof.
  unfold first_step, get. destruct s as [|[t0 x0] [|[t1 x1] s]]; cbn; split; intros H; try (destruct H; discriminate); try lia. eauto.
Qed.
Lemma first_step_err (s : signal) : (length s < 2)%nat -> first_step s = Err IndexError.
Proof. unfold first_step, get. destruct s as [|[t0 x0] [|[t1 x1] s]]; cbn; intros H; try reflexivity. lia. Qed.

(** ** Structure of a run *)
Definition ratios_of (b : boundary) (ls : list elay) : list C := match b with Elastic => ratios ls | Rigid => removelast (ratios ls) ++ [RtoC 0] end.
Lemma alphas_ok b ls : ls <> [] -> (b = Rigid -> (2 <= length ls)%nat) -> alphas b ls = Ok (ratios_of b ls).
Proof.
  intros N HB. unfold alphas. fold (ratios ls). destruct b; [reflexivity|]. specialize (HB eq_refl).
  destruct ls as [|l1 [|l2 ls]]; cbn in HB; try lia. rewrite ratios_cons. reflexivity.
Qed.
Lemma alphas_err ls : (length ls < 2)%nat -> alphas Rigid ls = Err IndexError.
Proof. intros H. destruct ls as [|l1 [|l2 ls]]; cbn in H; try lia; reflexivity. Qed.

Definition acc_of (N : nat) (dt : R) (ls : list elay) (b : boundary) (A : list C) (k : nat) : list R :=
  accel_col (H_col N dt ls (ratios_of b ls) k) A.
Definition dis_of N dt ls b A k : list R := detrend_end (integrate dt (integrate dt (acc_of N dt ls b A k))).
Definition gam_of N dt ls b A k : list R :=
  strain_col (dis_of N dt ls b A k) (dis_of N dt ls b A (S k)) (e_h (nth k ls (mkelay 0 0 0 0))).
Definition tau_of N dt ls b A k : list R := stress_col (nth k ls (mkelay 0 0 0 0)) (gam_of N dt ls b A k).

Lemma nth_seq_map {A} (f : nat -> A) n k d : (k < n)%nat -> nth k (map f (seq 0 n)) d = f k.
Proof. apply nth_map_seq. Qed.

Lemma lin_resp_ok N dt ls b A R_gamma : ls <> [] -> (b = Rigid -> (2 <= length ls)%nat) ->
  let n := length ls in
  lin_resp N dt ls b A R_gamma = Ok (mkresponse
    (map (H_col N dt ls (ratios_of b ls)) (seq 0 n)) (map (acc_of N dt ls b A) (seq 0 n))
    (map (fun k => integrate dt (acc_of N dt ls b A k)) (seq 0 n)) (map (dis_of N dt ls b A) (seq 0 n))
    (map (gam_of N dt ls b A) (seq 0 (n - 1))) (map (fun k => R_gamma * max_abs (gam_of N dt ls b A k)) (seq 0 (n - 1)))).
Proof.
  intros NE HB n. unfold lin_resp. rewrite (alphas_ok b ls NE HB). cbn [bind]. fold n.
  assert (EG : map (fun k => strain_col (nth k (map (fun x => detrend_end (integrate dt x)) (map (integrate dt) (map (fun Hk => accel_col Hk A) (map (H_col N dt ls (ratios_of b ls)) (seq 0 n))))) [])
      (nth (S k) (map (fun x => detrend_end (integrate dt x)) (map (integrate dt) (map (fun Hk => accel_col Hk A) (map (H_col N dt ls (ratios_of b ls)) (seq 0 n))))) [])
      (e_h (nth k ls (mkelay 0 0 0 0)))) (seq 0 (n - 1)) = map (gam_of N dt ls b A) (seq 0 (n - 1))).
  { apply map_ext_in. intros k I. apply in_seq in I. rewrite !map_map. rewrite !nth_seq_map by lia. reflexivity. }
  rewrite EG. rewrite !map_map. reflexivity.
Qed.

Definition run_N (s : signal) : nat := length (padded s).
Definition run_A (s : signal) : list C := dft (map RtoC (map (fun a => a / 2) (padded s))).
Lemma run_N_spec s : (2 <= length s)%nat -> Nat.Odd (run_N s) /\ run_N s = (if Nat.even (length s) then S (length s) else length s) /\ (3 <= run_N s)%nat.
Proof.
  intros H. unfold run_N. pose proof (pad_odd_length (vals s)) as P. rewrite vals_length in P. destruct P as [P1 P2]; [lia|].
  assert (E : padded s = pad_odd (vals s)) by (unfold padded, pad_odd; rewrite vals_length; reflexivity). rewrite E. split; [exact P1|]. split; [exact P2|].
  rewrite P2. destruct (Nat.even (length s)) eqn:Ev; [lia|]. destruct (length s) as [|[|[|n]]]; try lia. discriminate.
Qed.
Lemma run_A_length s : length (run_A s) = run_N s.
Proof. unfold run_A. rewrite dft_length, !map_length. reflexivity. Qed.
Lemma run_A_symmetric s : symmetric (run_A s).
Proof. apply dft_symmetric. Qed.

Lemma integrate_length dt x : length (integrate dt x) = length x.
Proof. unfold integrate, cumsum. rewrite map_length, cumsum_from_length. reflexivity. Qed.
Lemma detrend_length d : length (detrend_end d) = length d.
Proof. unfold detrend_end. rewrite map_length, seq_length. reflexivity. Qed.

(** The outcome of an accepted run, in closed form. *)
Definition outcome (s : signal) (p : list row) (dt : R) (b : boundary) : simres :=
  let ls := map elay_of p in let n := length p in let N := run_N s in let A := run_A s in let ev := Nat.even (length s) in
  let half := ((N + 1) / 2)%nat in let m := if ev then (half - 1)%nat else half in
  let tr (f : nat -> list R) (n : nat) := map (fun k => trim ev (f k)) (seq 0 n) in
  let a := tr (acc_of N dt ls b A) n in
  let v := tr (fun k => integrate dt (acc_of N dt ls b A k)) n in
  let d := tr (dis_of N dt ls b A) n in
  let g := tr (gam_of N dt ls b A) (n - 1)%nat in
  let u := tr (tau_of N dt ls b A) (n - 1)%nat in
  mksimres p (firstn m (map (fun i => INR (S i) / (INR N * dt)) (seq 0 N)))
    (map (fun z => Cdiv z (RtoC 2)) (firstn m (H_col N dt ls (ratios_of b ls) 0)))
    (combine (times s) (nth 0 a [])) a v d g u
    (combine (z_top_from 0 (map r_h p)) (combine (combine (map max_abs a) (map max_abs v)) (map max_abs d)))
    (combine (removelast (z_mid_from 0 (map r_h p))) (combine (map max_abs g) (map max_abs u))).

Lemma trim_pad_time s dt : trim (Nat.even (length s)) (pad_time (times s) dt) = times s.
Proof. unfold pad_time. rewrite times_length. destruct (Nat.even (length s)); cbn [trim]; [apply removelast_last|reflexivity]. Qed.
Lemma combine_map {A B C D} (f : A -> C) (g : B -> D) l : forall l', combine (map f l) (map g l') = map (fun p => (f (fst p), g (snd p))) (combine l l').
Proof. induction l as [|a l IH]; intros [|b l']; cbn; try reflexivity. f_equal. apply IH. Qed.
Lemma removelast_map {A B} (f : A -> B) l : removelast (map f l) = map f (removelast l).
Proof. induction l as [|a l IH]; [reflexivity|]. destruct l as [|b l]; [reflexivity|]. cbn [map removelast] in *. f_equal. exact IH. Qed.

Lemma calc_stress_eq N dt ls b A : calc_stress ls (map (gam_of N dt ls b A) (seq 0 (length ls - 1))) = map (tau_of N dt ls b A) (seq 0 (length ls - 1)).
Proof.
  unfold calc_stress. set (d0 := mkelay 0 0 0 0).
  assert (E : removelast ls = map (fun k => nth k ls d0) (seq 0 (length ls - 1))).
  { assert (D : ls = [] \/ exists i x, ls = i ++ [x]).
    { destruct ls as [|l0 ls0]; [left; reflexivity|right]. destruct (exists_last (l := l0 :: ls0)) as (i & x & E); [discriminate|]. eauto. }
    destruct D as [->|(i & x & ->)]; [reflexivity|].
    rewrite removelast_last, app_length. cbn [length]. replace (length i + 1 - 1)%nat with (length i) by lia.
    symmetry. rewrite (map_seq_eq (fun x => x) d0 i 0 (fun k => nth k (i ++ [x]) d0)); [apply map_id|]. intros j Hj. cbn [plus]. apply app_nth1, Hj. }
  rewrite E, combine_map, map_map. set (q := seq 0 (length ls - 1)).
  assert (EC : forall l : list nat, combine l l = map (fun k => (k, k)) l) by (induction l as [|a l IH]; cbn; [reflexivity|f_equal; exact IH]).
  rewrite EC, map_map. reflexivity.
Qed.

Lemma calc_stress_eq' N dt ls b A n : n = (length ls - 1)%nat -> calc_stress ls (map (gam_of N dt ls b A) (seq 0 n)) = map (tau_of N dt ls b A) (seq 0 n).
Proof. intros ->. apply calc_stress_eq. Qed.

Theorem linear_run : forall t s b init lst dt p, valid_table t -> t_ncol t = 5%nat -> t_rows t = init ++ [lst] -> cell 0 lst = 0 ->
  (b = Rigid -> init <> []) -> first_step s = Ok dt -> stratify (map row_of (t_rows t)) = Ok p ->
  linear t s b = Ok (outcome s p dt b).
Proof.
  intros t s b init lst dt p V C5 Er Z HB ED ES. unfold linear. rewrite (check_table_complete t V).
  destruct (strat_ok t V C5) as (init' & lst' & p' & Er' & ES' & Cl & So & Len & pi & pl & EP & FH & HZ & H0).
  rewrite Er in Er'. apply app_inj_tail in Er' as [<- <-]. rewrite ES in ES'. injection ES' as <-. specialize (H0 Z). apply HZ in Z.
  unfold prepare_inputs. rewrite ED, ES. cbn [bind]. rewrite C5. cbn [Nat.eqb bind in_A in_profile in_dt].
  rewrite incident_padded. fold (run_A s). rewrite run_A_length.
  assert (NE : map elay_of p <> []) by (rewrite EP, map_app; destruct (map elay_of pi); discriminate).
  assert (HB' : b = Rigid -> (2 <= length (map elay_of p))%nat).
  { intros Eb. specialize (HB Eb). rewrite EP, map_length, app_length. cbn [length]. destruct pi; [|cbn [length]; lia]. exfalso. apply HB, H0. reflexivity. }
  rewrite (lin_resp_ok _ _ _ b _ _ NE HB'). cbn [bind rs_gamma]. rewrite calc_stress_eq' by reflexivity. rewrite map_length.
  unfold post. cbn [in_even in_dt in_t rs_a rs_v rs_d rs_gamma rs_H]. rewrite !map_map.
  assert (NP : map r_h p <> []) by (rewrite EP, map_app; destruct (map r_h pi); discriminate).
  rewrite (thk2dep_top _ NP). cbn [bind].
  assert (EM : thk2dep (map r_h p) true = Ok (removelast (z_mid_from 0 (map r_h p)))).
  { unfold thk2dep. replace (last_res (map r_h p)) with (Ok (r_h pl)) by (rewrite EP, map_app; cbn [map]; rewrite last_res_app; reflexivity). cbn [bind negb]. rewrite (proj2 (Reqb_true _ _) Z). reflexivity. }
  rewrite EM. cbn [bind].
  rewrite removelast_length, z_mid_length, map_length, combine_length, !map_length, seq_length, Nat.min_id, Nat.eqb_refl. cbn [negb].
  unfold outcome. rewrite !map_map. rewrite trim_pad_time. f_equal. f_equal.
  rewrite EP. rewrite app_length. cbn [length]. replace (length pi + 1)%nat with (S (length pi)) by lia. reflexivity.
Qed.

Lemma linear_single t s dt p : valid_table t -> t_ncol t = 5%nat -> first_step s = Ok dt -> stratify (map row_of (t_rows t)) = Ok p ->
  (length p < 2)%nat -> linear t s Rigid = Err IndexError.
Proof.
  intros V C5 ED ES L. unfold linear. rewrite (check_table_complete t V). unfold prepare_inputs. rewrite ED, ES. cbn [bind]. rewrite C5. cbn [Nat.eqb bind in_A in_profile in_dt].
  unfold lin_resp. rewrite alphas_err by (rewrite map_length; exact L). reflexivity.
Qed.
Lemma linear_thick t s b init lst dt p : valid_table t -> t_ncol t = 5%nat -> t_rows t = init ++ [lst] -> cell 0 lst <> 0 ->
  first_step s = Ok dt -> stratify (map row_of (t_rows t)) = Ok p -> (b = Rigid -> (2 <= length p)%nat) ->
  linear t s b = Err ValueError.
Proof.
  intros V C5 Er Z ED ES HB. unfold linear. rewrite (check_table_complete t V).
  destruct (strat_ok t V C5) as (init' & lst' & p' & Er' & ES' & Cl & So & Len & pi & pl & EP & FH & HZ & _).
  rewrite Er in Er'. apply app_inj_tail in Er' as [<- <-]. rewrite ES in ES'. injection ES' as <-.
  unfold prepare_inputs. rewrite ED, ES. cbn [bind]. rewrite C5. cbn [Nat.eqb bind in_A in_profile in_dt].
  assert (NE : map elay_of p <> []) by (rewrite EP, map_app; destruct (map elay_of pi); discriminate).
  assert (HB' : b = Rigid -> (2 <= length (map elay_of p))%nat) by (rewrite map_length; exact HB).
  rewrite (lin_resp_ok _ _ _ b _ _ NE HB'). cbn [bind rs_gamma]. rewrite calc_stress_eq' by reflexivity. rewrite map_length.
  unfold post. cbn [in_even in_dt in_t rs_a rs_v rs_d rs_gamma rs_H]. rewrite !map_map.
  assert (NP : map r_h p <> []) by (rewrite EP, map_app; destruct (map r_h pi); discriminate).
  rewrite (thk2dep_top _ NP). cbn [bind].
  assert (EM : thk2dep (map r_h p) true = Ok (z_mid_from 0 (map r_h p))).
  { unfold thk2dep. replace (last_res (map r_h p)) with (Ok (r_h pl)) by (rewrite EP, map_app; cbn [map]; rewrite last_res_app; reflexivity). cbn [bind negb].
    rewrite (proj2 (Reqb_false _ _)); [reflexivity|]. intros E. apply Z, HZ, E. }
  rewrite EM. cbn [bind].
  rewrite z_mid_length, map_length, combine_length, !map_length, seq_length, Nat.min_id.
  destruct (Nat.eqb_spec (length p) (length p - 1)) as [E|_]; [|reflexivity]. rewrite EP, app_length in E. cbn in E. lia.
Qed.

(** An acceptable run: a five-column profile that ends in a half space (last thickness
    zero; with at least one soil layer if the boundary is rigid) and a record of at
    least two samples. *)
Definition acceptable (t : table) (s : signal) (b : boundary) : Prop :=
  valid_table t /\ t_ncol t = 5%nat /\ (2 <= length s)%nat /\
  exists init lst, t_rows t = init ++ [lst] /\ cell 0 lst = 0 /\ (b = Rigid -> init <> []).

Lemma accept_run t s b : acceptable t s b -> exists dt p, first_step s = Ok dt /\ stratify (map row_of (t_rows t)) = Ok p /\ linear t s b = Ok (outcome s p dt b).
Proof.
  intros (V & C5 & L & init & lst & Er & Z & HB). destruct (proj2 (first_step_ok s) L) as (dt & ED).
  destruct (strat_ok t V C5) as (_ & _ & p & _ & ES & _). exists dt, p. split; [exact ED|]. split; [exact ES|]. eapply linear_run; eauto.
Qed.

(** ** C56 *)
Theorem C56_accepts_iff : forall t s b, table_wf t -> ((exists r, linear t s b = Ok r) <-> acceptable t s b).
Proof.
  intros t s b Wf. split.
  - intros (r & E). assert (V : valid_table t).
    { apply (check_table t Wf). unfold linear in E. destruct (check_Vs_profile_format (as_pyobj t)) as [[]|]; [reflexivity|discriminate]. }
    assert (L : (2 <= length s)%nat).
    { unfold linear in E. rewrite (check_table_complete t V) in E. apply first_step_ok. unfold prepare_inputs in E. destruct (first_step s) as [dt|]; [eauto|discriminate]. }
    assert (C5 : t_ncol t = 5%nat).
    { destruct V as (five & Ec & Hg) eqn:EV. destruct five; [exact Ec|]. exfalso. unfold linear in E. rewrite (check_table_complete t V) in E. unfold prepare_inputs in E.
      destruct (first_step s); [|discriminate]. cbn [bind] in E. destruct (stratify (map row_of (t_rows t))); [|discriminate]. cbn [bind] in E. rewrite Ec in E. discriminate. }
    split; [exact V|]. split; [exact C5|]. split; [exact L|]. destruct (proj2 (first_step_ok s) L) as (dt & ED).
    destruct (strat_ok t V C5) as (init & lst & p & Er & ES & _ & _ & Len & pi & pl & EP & _ & HZ & H0). exists init, lst. split; [exact Er|].
    assert (B : b = Rigid -> (2 <= length p)%nat).
    { intros ->. destruct (Nat.lt_ge_cases (length p) 2) as [H|H]; [|exact H]. rewrite (linear_single t s dt p V C5 ED ES H) in E. discriminate. }
    assert (Z : cell 0 lst = 0).
    { destruct (Req_dec (cell 0 lst) 0) as [Z|Z]; [exact Z|]. rewrite (linear_thick t s b init lst dt p V C5 Er Z ED ES B) in E. discriminate. }
    split; [exact Z|]. intros Eb. specialize (B Eb). specialize (H0 Z). intros Ei. apply H0 in Ei. rewrite EP, app_length, Ei in B. cbn in B. lia.
  - intros H. destruct (accept_run t s b H) as (dt & p & _ & _ & E). eauto.
Qed.

(** What is raised otherwise.  A profile without the half-space row is only rejected
    after the whole computation, when the mid-depths do not match the strains. *)
Theorem C56_errors : forall t s b,
  (forall e, check_Vs_profile_format (as_pyobj t) = Err e -> linear t s b = Err e) /\
  (valid_table t ->
    ((length s < 2)%nat -> linear t s b = Err IndexError) /\
    (t_ncol t = 2%nat -> linear t s b = Err IndexError) /\
    (forall init lst, (2 <= length s)%nat -> t_ncol t = 5%nat -> t_rows t = init ++ [lst] ->
       (cell 0 lst = 0 -> b = Rigid -> init = [] -> linear t s b = Err IndexError) /\
       (cell 0 lst <> 0 -> b = Elastic \/ init <> [] -> linear t s b = Err ValueError))).
Proof.
  intros t s b. split.
  - intros e E. unfold linear. rewrite E. reflexivity.
  - intros V. split; [|split].
    + intros L. unfold linear. rewrite (check_table_complete t V). unfold prepare_inputs. rewrite (first_step_err s L). reflexivity.
    + intros C2. unfold linear. rewrite (check_table_complete t V). unfold prepare_inputs. destruct (first_step s) as [dt|e] eqn:ED.
      * cbn [bind]. destruct (stratify (map row_of (t_rows t))) as [p|e] eqn:ES; [cbn [bind]; rewrite C2; reflexivity|].
        exfalso. unfold stratify in ES. destruct V as (five & _ & init & lst & Er & _). rewrite Er, map_app in ES. cbn [map] in ES. rewrite last_res_app in ES. cbn [bind] in ES.
        destruct Reqb; discriminate.
      * destruct (Nat.lt_ge_cases (length s) 2) as [H|H]; [rewrite (first_step_err s H) in ED; injection ED as <-; reflexivity|].
        destruct (proj2 (first_step_ok s) H) as (dt & E). rewrite E in ED. discriminate.
    + intros init lst L C5 Er. destruct (proj2 (first_step_ok s) L) as (dt & ED).
      destruct (strat_ok t V C5) as (init' & lst' & p & Er' & ES & _ & _ & Len & pi & pl & EP & _ & HZ & H0).
      rewrite Er in Er'. apply app_inj_tail in Er' as [<- <-]. split.
      * intros Z -> Ei. apply (linear_single t s dt p V C5 ED ES). specialize (H0 Z). apply H0 in Ei. rewrite EP, app_length, Ei. cbn. lia.
      * intros Z HB. apply (linear_thick t s b init lst dt p V C5 Er Z ED ES). intros ->. destruct HB as [HB|HB]; [discriminate|].
        rewrite Er, app_length in Len. cbn [length] in Len. destruct init; [congruence|cbn [length] in Len; lia].
Qed.

Lemma acc_length s dt ls b k : (2 <= length s)%nat -> length (acc_of (run_N s) dt ls b (run_A s) k) = run_N s.
Proof.
  intros L. destruct (run_N_spec s L) as (O & _). unfold acc_of. rewrite accel_length; [apply run_A_length|]. rewrite H_col_length by exact O. symmetry. apply run_A_length.
Qed.
Lemma dis_length s dt ls b k : (2 <= length s)%nat -> length (dis_of (run_N s) dt ls b (run_A s) k) = run_N s.
Proof. intros L. unfold dis_of. rewrite detrend_length, !integrate_length. apply acc_length, L. Qed.
Lemma gam_length s dt ls b k : (2 <= length s)%nat -> length (gam_of (run_N s) dt ls b (run_A s) k) = run_N s.
Proof. intros L. unfold gam_of, strain_col. rewrite map_length, combine_length, !dis_length by exact L. lia. Qed.
Lemma srh_length l : length (set_real_head l) = length l.
Proof. destruct l; reflexivity. Qed.
Lemma stress_length l g : Nat.Odd (length g) -> length (stress_col l g) = length g.
Proof.
  intros [j Hj]. unfold stress_col. cbv zeta.
  set (first := map (fun z => Cmult z (Cmult (RtoC (e_G l)) (Cplus (RtoC 1) (Cmult (RtoC 2) (Cmult Ci (RtoC (e_D l))))))) (firstn ((length g + 1) / 2) (dft (map RtoC g)))).
  rewrite map_length, idft_length, srh_length, app_length, rev_length, map_length. assert (LF : length first = ((length g + 1) / 2)%nat).
  { unfold first. rewrite map_length, firstn_length, dft_length, map_length. rewrite Hj. replace (2 * j + 1 + 1)%nat with ((j + 1) * 2)%nat by lia. rewrite Nat.div_mul by lia. lia. }
  assert (LT : length (tl first) = (length first - 1)%nat) by (destruct first; cbn; lia). rewrite LT, LF, Hj.
  replace (2 * j + 1 + 1)%nat with ((j + 1) * 2)%nat by lia. rewrite Nat.div_mul by lia. lia.
Qed.
Lemma tau_length s dt ls b k : (2 <= length s)%nat -> length (tau_of (run_N s) dt ls b (run_A s) k) = run_N s.
Proof. intros L. unfold tau_of. destruct (run_N_spec s L) as (O & _). rewrite stress_length; rewrite gam_length by exact L; [reflexivity|exact O]. Qed.
Lemma trim_length s (x : list R) : (2 <= length s)%nat -> length x = run_N s -> length (trim (Nat.even (length s)) x) = length s.
Proof.
  intros L E. destruct (run_N_spec s L) as (_ & E2 & _). rewrite E2 in E. unfold trim. destruct (Nat.even (length s)); [rewrite removelast_length; lia|exact E].
Qed.
Lemma trim_firstn s (x : list R) : (2 <= length s)%nat -> length x = run_N s -> trim (Nat.even (length s)) x = firstn (length s) x.
Proof.
  intros L E. destruct (run_N_spec s L) as (_ & E2 & _). rewrite E2 in E. unfold trim. destruct (Nat.even (length s)).
  - destruct (exists_last (l := x)) as (i & z & ->); [destruct x; [cbn in E; lia|discriminate]|]. rewrite app_length in E. cbn [length] in E. rewrite removelast_last, firstn_app.
    replace (length s - length i)%nat with 0%nat by lia. cbn [firstn]. rewrite app_nil_r. symmetry. apply firstn_all2. lia.
  - symmetry. apply firstn_all2. lia.
Qed.

(** Every returned history has exactly the samples of the input record, at the same
    times, for even and odd lengths; one column per layer of the returned profile
    (one fewer for strain and stress); the spectra have half the length. *)
Definition shaped (s : signal) (r : simres) : Prop :=
  let n := length (sr_profile r) in let T := length s in
  (times (sr_surface r) = times s /\ sr_surface r = combine (times s) (nth 0 (sr_a r) []) /\ length (sr_surface r) = T) /\
  (length (sr_a r) = n /\ length (sr_v r) = n /\ length (sr_d r) = n /\ length (sr_max_avd r) = n) /\
  (length (sr_gamma r) = (n - 1)%nat /\ length (sr_tau r) = (n - 1)%nat /\ length (sr_max_gt r) = (n - 1)%nat) /\
  Forall (fun c => length c = T) (sr_a r ++ sr_v r ++ sr_d r ++ sr_gamma r ++ sr_tau r) /\
  (length (sr_freq r) = ((T + 1) / 2)%nat /\ length (sr_tf r) = ((T + 1) / 2)%nat).
Lemma outcome_shaped s p dt b : (2 <= length s)%nat -> (1 <= length p)%nat -> shaped s (outcome s p dt b).
Proof.
  intros L NP1. destruct (run_N_spec s L) as (O & EN & N3). cbv beta delta [shaped]. intros n T.
  cbn [sr_profile sr_a sr_v sr_d sr_gamma sr_tau sr_freq sr_tf sr_surface sr_max_avd sr_max_gt outcome] in *.
  assert (NP : (0 < n)%nat) by (unfold n; lia).
  assert (L0 : length (nth 0 (map (fun k => trim (Nat.even (length s)) (acc_of (run_N s) dt (map elay_of p) b (run_A s) k)) (seq 0 n)) []) = T).
  { rewrite nth_seq_map by exact NP. apply trim_length; [exact L|]. apply acc_length, L. }
  fold n. split; [|split; [|split; [|split]]].
  - split; [|split]; [|reflexivity|].
    + unfold times at 1. assert (EF : forall (l : list R) (l' : list R), length l = length l' -> map fst (combine l l') = l).
      { induction l as [|x l IH]; intros [|y l'] H; cbn in *; try lia; try reflexivity. f_equal. apply IH. lia. }
      apply EF. rewrite times_length. symmetry. exact L0.
    + rewrite combine_length, times_length. rewrite L0. apply Nat.min_id.
  - rewrite !combine_length, z_top_length, !map_length, !seq_length. fold n. repeat split; lia.
  - rewrite !combine_length, removelast_length, z_mid_length, !map_length, !seq_length. fold n. repeat split; lia.
  - repeat (apply Forall_app; split); apply Forall_map; apply Forall_forall; intros k _; apply trim_length; try exact L.
    + apply acc_length, L. + rewrite integrate_length. apply acc_length, L. + apply dis_length, L. + apply gam_length, L. + apply tau_length, L.
  - rewrite map_length, !firstn_length, map_length, seq_length, H_col_length by exact O.
    assert (Q : ((if Nat.even (length s) then (run_N s + 1) / 2 - 1 else (run_N s + 1) / 2) = (T + 1) / 2)%nat).
    { rewrite EN. unfold T. destruct (Nat.even (length s)) eqn:Ev; [|reflexivity]. apply Nat.even_spec in Ev as [j ->].
      replace (S (2 * j) + 1)%nat with ((j + 1) * 2)%nat by lia. rewrite Nat.div_mul by lia. replace (2 * j + 1)%nat with (1 + j * 2)%nat by lia. rewrite Nat.div_add by lia. cbn. lia. }
    rewrite Q. assert ((T + 1) / 2 <= run_N s)%nat; [|lia]. rewrite EN. unfold T. apply Nat.div_le_upper_bound; [lia|]. destruct Nat.even; lia.
Qed.
Lemma outcome_freq_length s p dt b : (2 <= length s)%nat -> length (sr_freq (outcome s p dt b)) = ((length s + 1) / 2)%nat /\ length (sr_tf (outcome s p dt b)) = ((length s + 1) / 2)%nat.
Proof.
  intros L. destruct (run_N_spec s L) as (O & EN & N3). cbn [sr_freq sr_tf outcome].
  rewrite map_length, !firstn_length, map_length, seq_length, H_col_length by exact O.
    assert (Q : ((if Nat.even (length s) then (run_N s + 1) / 2 - 1 else (run_N s + 1) / 2) = (length s + 1) / 2)%nat).
    { rewrite EN. destruct (Nat.even (length s)) eqn:Ev; [|reflexivity]. apply Nat.even_spec in Ev as [j ->].
      replace (S (2 * j) + 1)%nat with ((j + 1) * 2)%nat by lia. rewrite Nat.div_mul by lia. replace (2 * j + 1)%nat with (1 + j * 2)%nat by lia. rewrite Nat.div_add by lia. cbn. lia. }
    rewrite Q. assert ((length s + 1) / 2 <= run_N s)%nat; [|lia]. rewrite EN. apply Nat.div_le_upper_bound; [lia|]. destruct Nat.even; lia.
Qed.
Theorem C56_shapes : forall t s b r, table_wf t -> linear t s b = Ok r -> shaped s r.
Proof.
  intros t s b r Wf E. pose proof (proj1 (C56_accepts_iff t s b Wf) (ex_intro _ r E)) as HA. destruct (accept_run t s b HA) as (dt & p & ED & ES & E').
  rewrite E in E'. injection E' as ->. destruct HA as (V & C5 & L & _). apply outcome_shaped; [exact L|].
  destruct (strat_ok t V C5) as (i0 & l0 & p' & Er & ES' & _ & _ & Len & _). rewrite ES in ES'. injection ES' as <-. rewrite Er, app_length in Len. cbn [length] in Len. lia.
Qed.

(** ** Motions of the column *)
Lemma waves_firstn omega : forall ls v k, (k < length ls)%nat -> final omega (firstn (S k) ls) v = nth k (waves omega ls v) (RtoC 0, RtoC 0).
Proof.
  induction ls as [|l1 ls IH]; intros v k H; [cbn in H; lia|]. destruct ls as [|l2 ls].
  - destruct k as [|k]; [reflexivity|cbn in H; lia].
  - destruct k as [|k]; [reflexivity|]. change (firstn (S (S k)) (l1 :: l2 :: ls)) with (l1 :: firstn (S k) (l2 :: ls)).
    change (firstn (S k) (l2 :: ls)) with (l2 :: firstn k ls). rewrite final_cons. change (l2 :: firstn k ls) with (firstn (S k) (l2 :: ls)).
    rewrite IH by (cbn [length] in *; lia). reflexivity.
Qed.
Lemma nth_error_firstn {A} (l : list A) k j x : nth_error (firstn k l) j = Some x -> nth_error l j = Some x.
Proof. revert k j. induction l as [|a l IH]; intros [|k] [|j] H; cbn in *; try discriminate; try exact H. eapply IH, H. Qed.

Lemma motion_waves omega ls u g : 0 < omega -> Forall phys ls -> ls <> [] -> column_motion omega ls u g ->
  exists c, (forall k, (k < length ls)%nat -> u k 0 = Cmult c (wsum (nth k (waves omega ls one2) (RtoC 0, RtoC 0)))) /\
    forall A, upgoing omega (last ls (mklay 0 0 0 0)) (u (length ls - 1)%nat) A -> A = Cmult c (fst (final omega ls one2)).
Proof.
  intros W F N (EQ & FS & CT). destruct ls as [|l0 ls]; [congruence|]. inversion F as [|? ? P0 _]; subst.
  destruct (layer_waves omega l0 (u O) (g O) P0 W (EQ O l0 eq_refl)) as (A0 & B0 & U0).
  rewrite (proj2 (U0 0)), up_0, down_0 in FS.
  assert (AB : A0 = B0).
  { apply C_integral in FS as [Z|Z].
    - exfalso. apply C_integral in Z as [Z|Z]; [exact (Ci_neq Z)|exact (k_neq omega l0 P0 W Z)].
    - transitivity (Cplus (Cminus (Cmult A0 (RtoC 1)) (Cmult B0 (RtoC 1))) B0); [ring|rewrite Z; ring]. }
  subst B0. assert (AV : (A0, A0) = vscal A0 one2) by (unfold vscal, one2; cbn [fst snd]; f_equal; ring).
  exists A0. split.
  - intros k Hk. pose proof (motion_final omega W (firstn (S k) (l0 :: ls)) u g A0 A0) as MF.
    assert (LF : length (firstn (S k) (l0 :: ls)) = S k) by (rewrite firstn_length; lia). rewrite LF in MF. replace (S k - 1)%nat with k in MF by lia.
    rewrite MF.
    + rewrite up_0, down_0, AV, final_scal, waves_firstn by exact Hk. unfold vscal, wsum. cbn [fst snd]. ring.
    + rewrite Forall_forall in *. intros x I. apply F. rewrite <- (firstn_skipn (S k) (l0 :: ls)). apply in_or_app. left. exact I.
    + cbn [firstn]. discriminate.
    + intros j l E. apply EQ. eapply nth_error_firstn, E.
    + intros j l1 l2 E1 E2. apply CT; eapply nth_error_firstn; eassumption.
    + exact U0.
  - intros A (k & Bk & K1 & K2 & UP).
    assert (PL : phys (last (l0 :: ls) (mklay 0 0 0 0))).
    { rewrite Forall_forall in F. apply F. eapply nth_error_In. apply (nth_error_last (l0 :: ls) (mklay 0 0 0 0) N). }
    rewrite (wavenumber_unique omega _ k PL W K1 K2) in UP.
    pose proof (motion_final omega W (l0 :: ls) u g A0 A0 F N EQ CT U0) as UF. rewrite AV, final_scal in UF. unfold vscal in UF. cbn [fst snd] in UF.
    destruct (waves_unique (k_star omega (last (l0 :: ls) (mklay 0 0 0 0))) A Bk (Cmult A0 (fst (final omega (l0 :: ls) one2))) (Cmult A0 (snd (final omega (l0 :: ls) one2)))) as [EA _].
    + apply k_neq; assumption.
    + intros z. rewrite <- UF. symmetry. apply UP.
    + exact EA.
Qed.

(** The transfer function of layer [k] gives the motion at the top of the layer. *)
Lemma H_motion omega p b k u g : 0 < omega -> column (map lay_of_row p) -> Forall soil p -> (b = Rigid -> (2 <= length p)%nat) -> (k < length p)%nat ->
  column_motion omega (map lay_of_row p) u g ->
  let H := H_at omega (map elay_of p) (ratios_of b (map elay_of p)) k in
  (b = Elastic -> forall A, upgoing omega (last (map lay_of_row p) (mklay 0 0 0 0)) (u (length p - 1)%nat) A -> u k 0 = Cmult H A) /\
  (b = Rigid -> Cmult (RtoC 2) (u k 0) = Cmult H (u (length p - 1)%nat 0)).
Proof.
  intros W Cl So HB Hk CM H. destruct (as_lays p So) as [EO EL]. destruct (column_phys _ Cl) as [F N].
  assert (NE : map elay_of p <> []) by (destruct p; [cbn in Hk; lia|discriminate]).
  destruct (motion_waves omega _ u g W F N CM) as (c & U & UA). rewrite map_length in U, UA. split.
  - intros -> A UP. apply UA in UP. subst A. unfold H, ratios_of. rewrite H_elastic by assumption. rewrite EL, U by exact Hk.
    pose proof (incident_neq_0 omega _ W F N) as AN. field. exact AN.
  - intros ->. specialize (HB eq_refl). unfold H, ratios_of. pose proof (column_base omega _ W Cl) as BN.
    assert (BN' : wsum (final omega (map as_lay (map elay_of p)) one2) <> RtoC 0) by (rewrite EL; exact BN).
    rewrite H_rigid by (try assumption; rewrite map_length; assumption). rewrite EL in *. rewrite !U by lia.
    assert (EW : nth (length p - 1) (waves omega (map lay_of_row p) one2) (RtoC 0, RtoC 0) = final omega (map lay_of_row p) one2).
    { rewrite <- (map_length lay_of_row p). apply waves_last, N. }
    rewrite EW. field. exact BN'.
Qed.
Lemma H_surface omega p b : 0 < omega -> column (map lay_of_row p) -> Forall soil p -> (b = Rigid -> (2 <= length p)%nat) ->
  Cdiv (H_at omega (map elay_of p) (ratios_of b (map elay_of p)) 0) (RtoC 2) =
  match b with Elastic => tf_ro omega (map lay_of_row p) | Rigid => tf_bh omega (map lay_of_row p) end.
Proof.
  intros W Cl So HB. destruct (as_lays p So) as [EO EL]. destruct (column_phys _ Cl) as [F N].
  assert (NE : map elay_of p <> []) by (destruct p; [destruct N; reflexivity|discriminate]).
  destruct (tf_final omega _ N) as (T1 & _ & T3). rewrite T1, T3.
  assert (W0 : forall v, nth 0 (waves omega (map lay_of_row p) v) (RtoC 0, RtoC 0) = v) by (intros v; destruct (map lay_of_row p); [congruence|reflexivity]).
  assert (T2 : RtoC 2 = Cplus (RtoC 1) (RtoC 1)) by (rewrite <- RtoC_plus; f_equal; ring).
  assert (N2 : Cplus (RtoC 1) (RtoC 1) <> RtoC 0) by (rewrite <- T2; apply RtoC_neq; lra).
  pose proof (incident_neq_0 omega _ W F N) as AN. pose proof (column_base omega _ W Cl) as BN.
  destruct b; unfold ratios_of.
  - rewrite H_elastic by assumption. rewrite EL, W0. unfold wsum, one2. cbn [fst snd]. fold one2. rewrite T2. field. split; assumption.
  - specialize (HB eq_refl). assert (L0 : (0 < length p)%nat) by lia. rewrite H_rigid by (try assumption; rewrite ?map_length; try assumption; rewrite EL; exact BN). rewrite EL, W0. unfold wsum, one2. cbn [fst snd]. fold one2.
    rewrite T2. field. split; assumption.
Qed.
Lemma H_base omega p : 0 < omega -> column (map lay_of_row p) -> Forall soil p -> (2 <= length p)%nat ->
  H_at omega (map elay_of p) (ratios_of Rigid (map elay_of p)) (length p - 1) = RtoC 2.
Proof.
  intros W Cl So HB. destruct (as_lays p So) as [EO EL]. destruct (column_phys _ Cl) as [F N]. pose proof (column_base omega _ W Cl) as BN.
  unfold ratios_of. rewrite H_rigid by (try assumption; rewrite ?map_length; try assumption; try lia; rewrite EL; exact BN). rewrite EL.
  rewrite <- (map_length lay_of_row p), waves_last by exact N. unfold wsum. field. exact BN.
Qed.

(** ** C24 *)

(** An accepted run, with everything known about its profile. *)
Lemma linear_inv t s b r : table_wf t -> linear t s b = Ok r ->
  exists dt p, first_step s = Ok dt /\ stratify (map row_of (t_rows t)) = Ok p /\ r = outcome s p dt b /\ (2 <= length s)%nat /\
    column (map lay_of_row p) /\ Forall soil p /\ (b = Rigid -> (2 <= length p)%nat) /\ (1 <= length p)%nat.
Proof.
  intros Wf E. pose proof (proj1 (C56_accepts_iff t s b Wf) (ex_intro _ r E)) as HA. destruct (accept_run t s b HA) as (dt & p & ED & ES & E').
  rewrite E in E'. injection E' as ->. destruct HA as (V & C5 & L & init & lst & Er & Z & HB). exists dt, p.
  destruct (strat_ok t V C5) as (init' & lst' & p' & Er' & ES' & Cl & So & Len & _). rewrite ES in ES'. injection ES' as <-.
  repeat (split; [assumption || reflexivity|]). rewrite Er, app_length in Len. cbn [length] in Len. split; [|lia].
  intros Eb. specialize (HB Eb). destruct init; [congruence|cbn [length] in Len; lia].
Qed.

Lemma acc_spectrum s dt ls b k : (2 <= length s)%nat ->
  dft (map RtoC (acc_of (run_N s) dt ls b (run_A s) k)) = cmul (H_col (run_N s) dt ls (ratios_of b ls) k) (run_A s).
Proof.
  intros L. destruct (run_N_spec s L) as (O & _). unfold acc_of. apply accel_spectrum.
  - rewrite H_col_length by exact O. symmetry. apply run_A_length.
  - apply H_col_symmetric, O.
  - apply run_A_symmetric.
Qed.
Lemma run_A_nth s m : (m < run_N s)%nat -> Cmult (RtoC 2) (nth m (run_A s) (RtoC 0)) = nth m (dft (map RtoC (padded s))) (RtoC 0).
Proof.
  intros H. unfold run_A. assert (E : map (fun a => a / 2) (padded s) = map (Rmult (1 / 2)) (padded s)) by (apply map_ext; intros; field).
  rewrite E, dft_scale by exact H. rewrite Cmult_assoc, <- RtoC_mult. replace (2 * (1 / 2)) with 1 by field. apply Cmult_1_l.
Qed.
Lemma acc_bin s dt ls b k m : (2 <= length s)%nat -> (0 < m)%nat -> (2 * m < run_N s)%nat ->
  nth m (dft (map RtoC (acc_of (run_N s) dt ls b (run_A s) k))) (RtoC 0) =
  Cmult (H_at (bin_omega (run_N s) dt m) ls (ratios_of b ls) k) (nth m (run_A s) (RtoC 0)).
Proof.
  intros L H0 H1. destruct (run_N_spec s L) as (O & _). rewrite acc_spectrum by exact L.
  assert (LH : length (H_col (run_N s) dt ls (ratios_of b ls) k) = run_N s) by (apply H_col_length, O).
  rewrite cmul_nth by (rewrite LH; first [symmetry; apply run_A_length|lia]). rewrite H_col_low by assumption. reflexivity.
Qed.
Lemma acc_bin_0 s dt ls b k : (2 <= length s)%nat ->
  nth 0 (dft (map RtoC (acc_of (run_N s) dt ls b (run_A s) k))) (RtoC 0) =
  RtoC (Re (Cmult (H_at (bin_omega (run_N s) dt 0) ls (ratios_of b ls) k) (nth 0 (run_A s) (RtoC 0)))).
Proof.
  intros L. destruct (run_N_spec s L) as (O & _ & N3). rewrite acc_spectrum by exact L.
  assert (LH : length (H_col (run_N s) dt ls (ratios_of b ls) k) = run_N s) by (apply H_col_length, O).
  rewrite cmul_nth by (rewrite LH; first [symmetry; apply run_A_length|lia]). rewrite H_col_0 by assumption.
  destruct (run_A_symmetric s) as [S0 _]. assert (NE : run_A s <> []) by (intros E; pose proof (run_A_length s) as Q; rewrite E in Q; cbn in Q; lia).
  specialize (S0 NE). apply conj_real in S0. rewrite S0. set (x := Re (nth 0 (run_A s) (RtoC 0))). rewrite Re_mult, Re_R, Im_R, <- RtoC_mult. f_equal. ring.
Qed.

(** Circular frequency of bin [m] of a record of [N] samples: a fifteenth of the
    frequency step above the exact bin. *)
Definition omega_bin (N : nat) (dt : R) (m : nat) : R := 2 * PI * ((INR m + 1 / 15) / (INR N * dt)).

(** The accelerations of every layer are, frequency by frequency, those of the layered
    column shaken by the record: with an elastic boundary the upgoing wave of the half
    space is half the record; with a rigid boundary the top of the half space moves as
    the record. *)
Definition shaken (s : signal) (dt : R) (b : boundary) (ls : list lay) (a : list (list R)) : Prop :=
  let n := length ls in let N := length (padded s) in let X := dft (map RtoC (padded s)) in
  exists full, length full = n /\ a = map (firstn (length s)) full /\
  forall k, (k < n)%nat -> let Y := dft (map RtoC (nth k full [])) in length (nth k full []) = N /\
  forall m u g, (2 * m < N)%nat -> column_motion (omega_bin N dt m) ls u g ->
    (match b with
     | Elastic => exists A, upgoing (omega_bin N dt m) (last ls (mklay 0 0 0 0)) (u (n - 1)%nat) A /\ Cmult (RtoC 2) A = nth m X (RtoC 0)
     | Rigid => u (n - 1)%nat 0 = nth m X (RtoC 0)
     end) ->
    nth m Y (RtoC 0) = (if Nat.eqb m 0 then RtoC (Re (u k 0)) else u k 0).
(** A run over a profile with these properties. *)
Definition runs (s : signal) (p : list row) (b : boundary) : Prop :=
  (2 <= length s)%nat /\ column (map lay_of_row p) /\ Forall soil p /\ (b = Rigid -> (2 <= length p)%nat) /\ (1 <= length p)%nat.
Lemma outcome_shaken s p b dt : runs s p b -> 0 < dt -> shaken s dt b (map lay_of_row p) (sr_a (outcome s p dt b)).
Proof.
  intros (L & Cl & So & HB & NP) Hd. destruct (run_N_spec s L) as (O & EN & N3). cbv beta delta [shaken]. set (ls := map lay_of_row p). intros n N X.
  assert (Nn : n = length p) by (unfold n, ls; apply map_length).
  exists (map (acc_of (run_N s) dt (map elay_of p) b (run_A s)) (seq 0 n)). split; [rewrite map_length, seq_length; reflexivity|]. split.
  { cbn [sr_a outcome]. rewrite map_map. rewrite <- Nn. apply map_ext. intros k. apply trim_firstn; [exact L|apply acc_length, L]. }
  intros k Hk. rewrite nth_seq_map by exact Hk. intros Y. split; [apply acc_length, L|]. intros m u g Hm CM BC.
  change (omega_bin N dt m) with (bin_omega (run_N s) dt m) in *. fold (run_N s) in N. subst N.
  assert (W : 0 < bin_omega (run_N s) dt m) by (apply bin_omega_pos; [lia|exact Hd]).
  rewrite Nn in Hk. destruct (H_motion (bin_omega (run_N s) dt m) p b k u g W Cl So HB Hk CM) as [HE HR]. fold ls in HE. rewrite <- Nn in HE, HR.
  assert (XA : nth m X (RtoC 0) = Cmult (RtoC 2) (nth m (run_A s) (RtoC 0))) by (unfold X; symmetry; apply run_A_nth; lia).
  assert (C2 : forall x y, Cmult (RtoC 2) x = Cmult (RtoC 2) y -> x = y).
  { intros x y H. assert (H2 : RtoC 2 <> RtoC 0) by (apply RtoC_neq; lra). transitivity (Cdiv (Cmult (RtoC 2) x) (RtoC 2)); [field; exact H2|]. rewrite H. field. exact H2. }
  assert (EU : u k 0 = Cmult (H_at (bin_omega (run_N s) dt m) (map elay_of p) (ratios_of b (map elay_of p)) k) (nth m (run_A s) (RtoC 0))).
  { destruct b.
    - destruct BC as (A & UP & EA). rewrite (HE eq_refl A UP). f_equal. apply C2. rewrite EA. exact XA.
    - apply C2. rewrite (HR eq_refl), BC, XA. ring. }
  rewrite EU. destruct (Nat.eqb_spec m 0) as [->|M0].
  - apply acc_bin_0, L.
  - apply acc_bin; [exact L|lia|exact Hm].
Qed.
Theorem C24_every_layer : forall t s b r dt, table_wf t -> linear t s b = Ok r -> first_step s = Ok dt -> 0 < dt ->
  shaken s dt b (map lay_of_row (sr_profile r)) (sr_a r).
Proof.
  intros t s b r dt Wf E ED Hd. destruct (linear_inv t s b r Wf E) as (dt' & p & ED' & ES & -> & RN).
  rewrite ED in ED'. injection ED' as <-. apply outcome_shaken; [exact RN|exact Hd].
Qed.

(** The returned transfer function is the surface-to-outcrop (elastic) or borehole
    (rigid) function of the returned profile, evaluated a fifteenth of a frequency step
    above [m/(N dt)], whereas the frequency reported beside it is [(m+1)/(N dt)]. *)
Definition reports_tf (s : signal) (dt : R) (b : boundary) (ls : list lay) (freq : list R) (h : list C) : Prop :=
  let N := length (padded s) in
  let tf w := match b with Elastic => tf_ro w ls | Rigid => tf_bh w ls end in
  length h = ((length s + 1) / 2)%nat /\ length freq = length h /\
  forall m, (m < length h)%nat ->
    nth m freq 0 = INR (S m) / (INR N * dt) /\
    nth m h (RtoC 0) = (if Nat.eqb m 0 then RtoC (Re (tf (omega_bin N dt 0))) else tf (omega_bin N dt m)).
Lemma outcome_tf s p b dt : runs s p b -> 0 < dt -> reports_tf s dt b (map lay_of_row p) (sr_freq (outcome s p dt b)) (sr_tf (outcome s p dt b)).
Proof.
  intros (L & Cl & So & HB & NP) Hd. destruct (run_N_spec s L) as (O & EN & N3). cbv beta delta [reports_tf]. set (ls := map lay_of_row p). intros N tf.
  destruct (outcome_freq_length s p dt b L) as [SF ST]. split; [exact ST|]. split; [rewrite SF, ST; reflexivity|]. intros m Hm.
  rewrite ST in Hm. rewrite <- SF in Hm at 1.
  assert (M2 : (2 * m < run_N s)%nat).
  { assert (2 * ((length s + 1) / 2) <= length s + 1)%nat by (apply Nat.mul_div_le; lia). rewrite SF in Hm. rewrite EN. destruct Nat.even; lia. }
  set (q := if Nat.even (length s) then ((run_N s + 1) / 2 - 1)%nat else ((run_N s + 1) / 2)%nat).
  assert (Hq : (m < q)%nat) by (cbn [sr_freq outcome] in Hm; rewrite firstn_length in Hm; unfold q; lia).
  assert (FN : forall A (l : list A) d, (m < q)%nat -> nth m (firstn q l) d = nth m l d).
  { intros A l d H. destruct (Nat.lt_ge_cases m (length l)) as [H1|H1].
    - rewrite <- (firstn_skipn q l) at 2. rewrite app_nth1; [reflexivity|]. rewrite firstn_length. lia.
    - rewrite !nth_overflow; [reflexivity|exact H1|rewrite firstn_length; lia]. }
  split.
  - cbn [sr_freq outcome]. fold q. rewrite FN by exact Hq. rewrite nth_seq_map by lia. reflexivity.
  - cbn [sr_tf outcome]. fold q. rewrite (map_nth' _ _ m (RtoC 0)) by (rewrite firstn_length, H_col_length by exact O; lia). rewrite FN by exact Hq.
    assert (W : forall j, 0 < bin_omega (run_N s) dt j) by (intros j; apply bin_omega_pos; [lia|exact Hd]).
    destruct (Nat.eqb_spec m 0) as [->|M0].
    + rewrite H_col_0 by exact O. change (omega_bin N dt 0) with (bin_omega (run_N s) dt 0). unfold tf, ls. cbn [sr_profile outcome]. rewrite <- (H_surface _ p b (W 0%nat) Cl So HB).
      set (h := H_at _ _ _ _). unfold Cdiv. rewrite <- RtoC_inv by lra. rewrite <- RtoC_mult. f_equal. rewrite Re_mult, Re_R, Im_R. ring.
    + rewrite H_col_low by (try exact O; lia). change (omega_bin N dt m) with (bin_omega (run_N s) dt m). unfold tf, ls. cbn [sr_profile outcome]. apply H_surface; auto.
Qed.
Theorem C24_transfer_function : forall t s b r dt, table_wf t -> linear t s b = Ok r -> first_step s = Ok dt -> 0 < dt ->
  reports_tf s dt b (map lay_of_row (sr_profile r)) (sr_freq r) (sr_tf r).
Proof.
  intros t s b r dt Wf E ED Hd. destruct (linear_inv t s b r Wf E) as (dt' & p & ED' & ES & -> & RN).
  rewrite ED in ED'. injection ED' as <-. apply outcome_tf; [exact RN|exact Hd].
Qed.

(** ** C25 *)

(** With a rigid boundary the motion returned for the bottom row is the input record,
    sample for sample. *)
Theorem C25_rigid_base : forall t s r, table_wf t -> linear t s Rigid = Ok r -> (forall dt, first_step s = Ok dt -> 0 < dt) ->
  last (sr_a r) [] = vals s.
Proof.
  intros t s r Wf E Hd. destruct (linear_inv t s Rigid r Wf E) as (dt & p & ED & ES & -> & L & Cl & So & HB & NP). specialize (Hd dt ED). specialize (HB eq_refl).
  destruct (run_N_spec s L) as (O & EN & N3). cbn [sr_a outcome]. rewrite last_nth_l, map_length, seq_length, nth_seq_map by lia.
  assert (W : forall j, 0 < bin_omega (run_N s) dt j) by (intros j; apply bin_omega_pos; [lia|exact Hd]).
  set (ls := map elay_of p). assert (LH : length (H_col (run_N s) dt ls (ratios_of Rigid ls) (length p - 1)) = run_N s) by (apply H_col_length, O).
  assert (HB2 : forall m, (m < run_N s)%nat -> nth m (H_col (run_N s) dt ls (ratios_of Rigid ls) (length p - 1)) (RtoC 0) = RtoC 2).
  { assert (LOW : forall m, (0 < m)%nat -> (2 * m < run_N s)%nat -> nth m (H_col (run_N s) dt ls (ratios_of Rigid ls) (length p - 1)) (RtoC 0) = RtoC 2).
    { intros m H0 H1. rewrite H_col_low by (try exact O; assumption). apply H_base; auto. }
    intros m Hm. destruct m as [|m].
    - rewrite H_col_0 by exact O. unfold ls. rewrite H_base by auto. reflexivity.
    - destruct (Nat.lt_ge_cases (2 * S m) (run_N s)) as [H|H]; [apply LOW; lia|].
      pose proof (H_col_mirror (run_N s) dt ls (ratios_of Rigid ls) (length p - 1) O (run_N s - S m)) as M. replace (run_N s - (run_N s - S m))%nat with (S m) in M by lia.
      destruct O as [j Hj]. rewrite M by lia. rewrite LOW by lia. apply Cconj_R. }
  assert (EA : acc_of (run_N s) dt ls Rigid (run_A s) (length p - 1) = padded s).
  { assert (INJ : forall x y : list R, map RtoC x = map RtoC y -> x = y).
    { induction x as [|a x IH]; intros [|c y] H; cbn in H; try discriminate; [reflexivity|]. injection H as H1 H2. f_equal; [exact H1|apply IH, H2]. }
    apply INJ. rewrite <- (idft_dft (map RtoC (acc_of _ _ _ _ _ _))), <- (idft_dft (map RtoC (padded s))). f_equal.
    rewrite acc_spectrum by exact L. apply list_eq_nth.
    - rewrite cmul_length by (rewrite LH; symmetry; apply run_A_length). rewrite LH, dft_length, map_length. reflexivity.
    - intros m Hm. rewrite cmul_length, LH in Hm by (rewrite LH; symmetry; apply run_A_length).
      rewrite cmul_nth by (rewrite LH; first [symmetry; apply run_A_length|exact Hm]). rewrite HB2 by exact Hm. apply run_A_nth, Hm. }
  fold ls. rewrite EA. unfold trim, padded. destruct (Nat.even (length s)); [apply removelast_last|reflexivity].
Qed.

(** With an elastic boundary and no soil above the half space, the surface moves as the
    record: the incident wave is half of the outcrop motion. *)
Theorem C25_bare_rock : forall t s r, table_wf t -> linear t s Elastic = Ok r -> length (t_rows t) = 1%nat -> sr_a r = [vals s].
Proof.
  intros t s r Wf E L1. pose proof (proj1 (C56_accepts_iff t s Elastic Wf) (ex_intro _ r E)) as (V & C5 & _ & init & lst & Er & Z & _).
  destruct (linear_inv t s Elastic r Wf E) as (dt & p & ED & ES & -> & L & Cl & So & _ & NP).
  destruct (strat_ok t V C5) as (init' & lst' & p' & Er' & ES' & _ & _ & _ & pi & pl & EP & _ & _ & H0).
  rewrite Er in Er'. apply app_inj_tail in Er' as [<- <-]. rewrite ES in ES'. injection ES' as <-. specialize (H0 Z).
  assert (Ei : init = []) by (rewrite Er, app_length in L1; cbn in L1; destruct init; [reflexivity|cbn in L1; lia]).
  apply H0 in Ei. destruct pi; [|cbn in Ei; lia]. cbn [app] in EP. subst p. cbn [sr_a outcome length seq map].
  destruct (run_N_spec s L) as (O & EN & N3). f_equal.
  set (ls := [elay_of pl]). assert (LH : length (H_col (run_N s) dt ls (ratios_of Elastic ls) 0) = run_N s) by (apply H_col_length, O).
  assert (HA : forall w, H_at w ls (ratios_of Elastic ls) 0 = RtoC 2).
  { intros w. unfold H_at. cbn. assert (T2 : RtoC 2 = Cplus (RtoC 1) (RtoC 1)) by (rewrite <- RtoC_plus; f_equal; ring). rewrite T2. field. apply RtoC_neq. lra. }
  assert (HB2 : forall m, (m < run_N s)%nat -> nth m (H_col (run_N s) dt ls (ratios_of Elastic ls) 0) (RtoC 0) = RtoC 2).
  { assert (LOW : forall m, (0 < m)%nat -> (2 * m < run_N s)%nat -> nth m (H_col (run_N s) dt ls (ratios_of Elastic ls) 0) (RtoC 0) = RtoC 2).
    { intros m H1 H2. rewrite H_col_low by (try exact O; assumption). apply HA. }
    intros m Hm. destruct m as [|m].
    - rewrite H_col_0 by exact O. rewrite HA. reflexivity.
    - destruct (Nat.lt_ge_cases (2 * S m) (run_N s)) as [H|H]; [apply LOW; lia|].
      pose proof (H_col_mirror (run_N s) dt ls (ratios_of Elastic ls) 0 O (run_N s - S m)) as M. replace (run_N s - (run_N s - S m))%nat with (S m) in M by lia.
      destruct O as [j Hj]. rewrite M by lia. rewrite LOW by lia. apply Cconj_R. }
  assert (EA : acc_of (run_N s) dt ls Elastic (run_A s) 0 = padded s).
  { assert (INJ : forall x y : list R, map RtoC x = map RtoC y -> x = y).
    { induction x as [|a x IH]; intros [|c y] H; cbn in H; try discriminate; [reflexivity|]. injection H as H1 H2. f_equal; [exact H1|apply IH, H2]. }
    apply INJ. rewrite <- (idft_dft (map RtoC (acc_of _ _ _ _ _ _))), <- (idft_dft (map RtoC (padded s))). f_equal.
    rewrite acc_spectrum by exact L. apply list_eq_nth.
    - rewrite cmul_length by (rewrite LH; symmetry; apply run_A_length). rewrite LH, dft_length, map_length. reflexivity.
    - intros m Hm. rewrite cmul_length, LH in Hm by (rewrite LH; symmetry; apply run_A_length).
      rewrite cmul_nth by (rewrite LH; first [symmetry; apply run_A_length|exact Hm]). rewrite HB2 by exact Hm. apply run_A_nth, Hm. }
  fold ls. rewrite EA. unfold trim, padded. destruct (Nat.even (length s)); [apply removelast_last|reflexivity].
Qed.

(** ** Comparison with the analytic routine *)
Lemma lay5_row r : lay5 r = lay_of_row (row_of r).
Proof. unfold lay5, lay_of_row, row_of, cell. cbn [r_h r_vs r_rest]. destruct r as [|a [|b [|c [|d r]]]]; reflexivity. Qed.

(** Unless a layer is within the rounding tolerance of a whole number of sub-layers
    (when stratification changes its thickness), these are the functions of the
    original profile, that is those of the analytic routine. *)
Theorem C24_agrees_with_linear_tf : forall t s b r dt, table_wf t -> linear t s b = Ok r -> first_step s = Ok dt -> 0 < dt ->
  Forall (fun x => cell 0 x <= cell 1 x / 225 \/ ~ near_integer (cell 0 x / (cell 1 x / 225))) (removelast (t_rows t)) ->
  let N := length (padded s) in
  forall m, (0 < m < length (sr_tf r))%nat ->
    nth m (sr_tf r) (RtoC 0) = match b with Elastic => tf_ro (omega_bin N dt m) (lays_of t) | Rigid => tf_bh (omega_bin N dt m) (lays_of t) end.
Proof.
  intros t s b r dt Wf E ED Hd HF N m Hm. destruct (C24_transfer_function t s b r dt Wf E ED Hd) as (_ & _ & T). specialize (T m ltac:(lia)). destruct T as [_ T]. fold N in T.
  pose proof (proj1 (C56_accepts_iff t s b Wf) (ex_intro _ r E)) as (V & C5 & _ & init & lst & Er & Z & _).
  destruct (linear_inv t s b r Wf E) as (dt' & p & _ & ES & -> & _). change (sr_profile (outcome s p dt' b)) with p in T.
  destruct (Nat.eqb m 0) eqn:E0; [apply Nat.eqb_eq in E0; lia|]. rewrite T.
  assert (EL : lays_of t = map lay_of_row (map row_of (t_rows t))).
  { rewrite lays_of_eq, C5. cbn [Nat.eqb]. rewrite map_map. apply map_ext. apply lay5_row. }
  assert (LR : last_res (map row_of (t_rows t)) = Ok (row_of lst)) by (rewrite Er, map_app; apply last_res_app).
  assert (ZR : r_h (row_of lst) = 0) by exact Z.
  destruct (C23_stratified (omega_bin N dt m) (map row_of (t_rows t)) (row_of lst) p LR ZR) as (T1 & _ & T3); [|exact ES|].
  - rewrite Er in HF |- *. rewrite removelast_last in HF. rewrite map_app. cbn [map]. rewrite removelast_last. rewrite Forall_map.
    destruct V as (five & Ec & i' & l' & Er' & Fi & _). destruct five; [|rewrite C5 in Ec; discriminate]. rewrite Er in Er'. apply app_inj_tail in Er' as [<- <-].
    rewrite Forall_forall in *. intros x I. destruct (good_soil false x (Fi x I)) as [[P _] H]. split; [exact P|]. split; [exact H|]. apply (HF x I).
  - rewrite EL. destruct b; [exact T1|exact T3].
Qed.

(** The frequency reported beside a value is not the one at which the value was
    computed: a profile and a record for which the transfer function at the reported
    frequency has another amplitude. *)
Lemma ccos_nsq omega l : phys l -> 0 < omega ->
  let k := k_star omega l in let b := - Im k * l_h l in
  nsq (Cdiv (Cplus (up k (l_h l)) (down k (l_h l))) (RtoC 2)) = ((exp b - exp (- b)) / 2) ^ 2 + cos (Re k * l_h l) ^ 2.
Proof.
  intros P W k b. unfold up, down. destruct (exponents omega l) as [E1 E2]. fold k in E1, E2. rewrite E1, E2. fold b.
  assert (EE : exp b * exp (- b) = 1) by (rewrite <- exp_plus, Rplus_opp_r; apply exp_0).
  pose proof (sin2_cos2 (Re k * l_h l)) as SC. unfold Rsqr in SC. rewrite cis_neg. unfold cis, Cconj.
  unfold Cdiv. rewrite <- RtoC_inv by lra. unfold nsq. rewrite !Re_mult, !Im_mult, !Re_plus, !Im_plus, !Re_mult, !Im_mult, !Re_R, !Im_R.
  unfold Re at 1 2 3 4, Im at 1 2 3 4. unfold Re at 1 2, Im at 1 2. cbn [fst snd]. fold (Re k) in *.
  unfold Re, Im in *. cbn [fst snd] in *. set (x := fst k * l_h l) in *. set (c := cos x) in *. set (sn := sin x) in *. set (e := exp b) in *. set (e' := exp (- b)) in *.
  clearbody c sn e e'. assert (S2 : sn * sn = 1 - c * c) by lra.
  replace (((e * c - 0 * sn + (e' * c - 0 * - sn)) * / 2 - (e * sn + 0 * c + (e' * - sn + 0 * c)) * 0) *
   ((e * c - 0 * sn + (e' * c - 0 * - sn)) * / 2 - (e * sn + 0 * c + (e' * - sn + 0 * c)) * 0) +
   ((e * c - 0 * sn + (e' * c - 0 * - sn)) * 0 + (e * sn + 0 * c + (e' * - sn + 0 * c)) * / 2) *
   ((e * c - 0 * sn + (e' * c - 0 * - sn)) * 0 + (e * sn + 0 * c + (e' * - sn + 0 * c)) * / 2))
   with ((e + e') * (e + e') / 4 * (c * c) + (e - e') * (e - e') / 4 * (sn * sn)) by field.
  rewrite S2. replace ((e + e') * (e + e')) with ((e - e') * (e - e') + 4 * (e * e')) by ring. rewrite EE. field.
Qed.

Theorem C24_labels_refuted : exists t s r m, table_wf t /\ linear t s Rigid = Ok r /\ (m < length (sr_tf r))%nat /\
  Cmod (nth m (sr_tf r) (RtoC 0)) <> Cmod (tf_bh (2 * PI * nth m (sr_freq r) 0) (map lay_of_row (sr_profile r))).
Proof.
  set (r1 := [1; 225; 5 / 100; 2000; 1]). set (r2 := [0; 800; 2 / 100; 2200; 0]). set (t := mktable false 5 [r1; r2]).
  set (l1 := mklay 1 225 (5 / 100) 2000). set (l2 := mklay 0 800 (2 / 100) 2200).
  assert (P1 : phys l1) by (unfold phys, l1; cbn; repeat split; lra). assert (P2 : phys l2) by (unfold phys, l2; cbn; repeat split; lra).
  set (kap := Re (Cinv (vs_star l1))).
  assert (KS : forall w, k_star w l1 = Cmult (RtoC w) (Cinv (vs_star l1))) by (intros; reflexivity).
  destruct (k_star_parts 1 l1 P1 ltac:(lra)) as (KP & _ & KI). specialize (KI ltac:(cbn; lra)). rewrite KS, Re_mult, Re_R, Im_R in KP. rewrite KS, Im_mult, Re_R, Im_R in KI. fold kap in KP.
  set (mu := - Im (Cinv (vs_star l1))). assert (Km : 0 < mu) by (unfold mu; lra). assert (Kk : 0 < kap) by lra. clear KP KI.
  set (dt := 4 * kap / 5). assert (Hd : 0 < dt) by (unfold dt; lra).
  set (s := [(0, 0); (dt, 1); (2 * dt, 0); (3 * dt, -1); (4 * dt, 0)] : signal).
  assert (V : valid_table t).
  { exists true. split; [reflexivity|]. exists [r1], r2. split; [reflexivity|]. split.
    - constructor; [|constructor]. exists 1, 225, [5 / 100; 2000; 1]. split; [reflexivity|]. split; [lra|]. split; [lra|]. exists (5 / 100), 2000, 1%Z. split; [reflexivity|]. split; [lra|]. split; [lra|lia].
    - exists 0, 800, [2 / 100; 2200; 0]. split; [reflexivity|]. split; [lra|]. split; [lra|]. exists (2 / 100), 2200, 0%Z. split; [reflexivity|]. split; [lra|]. split; [lra|lia]. }
  assert (Wf : table_wf t) by (repeat constructor).
  assert (AC : acceptable t s Rigid).
  { split; [exact V|]. split; [reflexivity|]. split; [cbn; lia|]. exists [r1], r2. split; [reflexivity|]. split; [reflexivity|]. intros _. discriminate. }
  destruct (proj2 (C56_accepts_iff t s Rigid Wf) AC) as (r & E). exists t, s, r, 1%nat. split; [exact Wf|]. split; [exact E|].
  assert (ED : first_step s = Ok dt) by (unfold first_step, get, times, s; cbn; f_equal; ring).
  destruct (C56_shapes t s Rigid r Wf E) as (_ & _ & _ & _ & SF & ST). change ((length s + 1) / 2)%nat with 3%nat in *.
  split; [rewrite ST; lia|]. destruct (C24_transfer_function t s Rigid r dt Wf E ED Hd) as (_ & _ & T). destruct (T 1%nat ltac:(rewrite ST; lia)) as [F1 T1]. clear T. cbn [Nat.eqb] in T1. rewrite F1, T1. clear F1 T1.
  change (length (padded s)) with 5%nat.
  assert (EP : map lay_of_row (sr_profile r) = [l1; l2]).
  { destruct (linear_inv t s Rigid r Wf E) as (dt' & p & _ & ES & -> & _). change (sr_profile (outcome s p dt' Rigid)) with p.
    unfold stratify in ES. cbn [t_rows t map row_of] in ES. change (last_res [row_of r1; row_of r2]) with (Ok (row_of r2)) in ES. cbn [bind] in ES.
    rewrite (proj2 (Reqb_true _ _)) in ES by reflexivity. injection ES as <-. cbn [removelast flat_map]. unfold sublayers. cbn [row_of r_h r_vs cell nth r1].
    rewrite (proj2 (Rleb_true 1 (225 / 225))) by lra. reflexivity. }
  rewrite EP. set (w1 := omega_bin 5 dt 1). set (w2 := 2 * PI * (INR 2 / (INR 5 * dt))). pose proof PI_RGT_0 as HP.
  assert (E5 : INR 5 = 5) by (cbn; ring). assert (E2 : INR 2 = 2) by (cbn; ring). assert (E1 : INR 1 = 1) by reflexivity.
  assert (W2 : w2 = PI / kap) by (unfold w2, dt; rewrite E5, E2; field; lra).
  assert (W1 : w1 = 8 / 15 * (PI / kap)) by (unfold w1, omega_bin, dt; rewrite E5, E1; field; lra).
  assert (Q : 0 < PI / kap) by (apply Rdiv_lt_0_compat; lra).
  assert (W1p : 0 < w1) by (rewrite W1; lra). assert (W2p : 0 < w2) by (rewrite W2; lra).
  destruct (C23_single_layer w1 l1 l2 P1 P2 W1p) as [_ B1]. destruct (C23_single_layer w2 l1 l2 P1 P2 W2p) as [_ B2]. cbv zeta in B1, B2. rewrite B1, B2. clear B1 B2.
  pose proof (ccos_nsq w1 l1 P1 W1p) as N1. pose proof (ccos_nsq w2 l1 P1 W2p) as N2. cbv zeta in N1, N2.
  set (z1 := Cdiv (Cplus (up (k_star w1 l1) (l_h l1)) (down (k_star w1 l1) (l_h l1))) (RtoC 2)) in *.
  set (z2 := Cdiv (Cplus (up (k_star w2 l1) (l_h l1)) (down (k_star w2 l1) (l_h l1))) (RtoC 2)) in *.
  rewrite !KS, !Im_mult, !Re_mult, !Re_R, !Im_R in N1, N2. cbn [l_h l1] in N1, N2. fold kap in N1, N2.
  replace (- (w1 * Im (Cinv (vs_star l1)) + 0 * kap) * 1) with (w1 * mu) in N1 by (unfold mu; ring).
  replace (- (w2 * Im (Cinv (vs_star l1)) + 0 * kap) * 1) with (w2 * mu) in N2 by (unfold mu; ring).
  replace ((w2 * kap - 0 * Im (Cinv (vs_star l1))) * 1) with PI in N2 by (rewrite W2; field; lra). rewrite cos_PI in N2.
  pose proof (COS_bound ((w1 * kap - 0 * Im (Cinv (vs_star l1))) * 1)) as CB. set (c := cos ((w1 * kap - 0 * Im (Cinv (vs_star l1))) * 1)) in *. clearbody c.
  assert (LT : nsq z1 < nsq z2).
  { rewrite N1, N2. assert (B12 : w1 * mu < w2 * mu) by (apply Rmult_lt_compat_r; [exact Km|rewrite W1, W2; lra]).
    assert (B0 : 0 < w1 * mu) by (apply Rmult_lt_0_compat; assumption).
    pose proof (exp_increasing _ _ B12) as I1. assert (I2 : exp (- (w2 * mu)) < exp (- (w1 * mu))) by (apply exp_increasing; lra).
    assert (I3 : exp (- (w1 * mu)) < exp (w1 * mu)) by (apply exp_increasing; lra).
    set (a := exp (w1 * mu)) in *. set (a' := exp (- (w1 * mu))) in *. set (d := exp (w2 * mu)) in *. set (d' := exp (- (w2 * mu))) in *. clearbody a a' d d'.
    assert (c ^ 2 <= 1) by nra. nra. }
  assert (Z1 : 0 < nsq z1).
  { rewrite N1. assert (B0 : 0 < w1 * mu) by (apply Rmult_lt_0_compat; assumption). assert (I3 : exp (- (w1 * mu)) < exp (w1 * mu)) by (apply exp_increasing; lra).
    assert (0 < (exp (w1 * mu) - exp (- (w1 * mu))) / 2) by lra. nra. }
  assert (NZ : forall z, 0 < nsq z -> z <> RtoC 0) by (intros z H Ez; rewrite Ez in H; unfold nsq in H; rewrite Re_R, Im_R in H; lra).
  unfold Cdiv. rewrite !Cmod_mult, !Cmod_inv by (apply NZ; lra). intros H. rewrite Cmod_1, !Rmult_1_l in H. apply (f_equal Rinv) in H. rewrite !Rinv_inv in H.
  pose proof (Cmod_sq z1) as M1. pose proof (Cmod_sq z2) as M2. fold (nsq z1) in M1. fold (nsq z2) in M2. rewrite H in M1. lra.
Qed.

(** ** Instances *)
Definition demo_table : table := mktable false 5 [[1; 225; 5 / 100; 2000; 1]; [0; 800; 2 / 100; 2200; 0]].
Definition demo_even : signal := [(0, 0); (1 / 100, 1); (2 / 100, 0); (3 / 100, -1)].
Definition demo_odd : signal := [(0, 0); (1 / 100, 1); (2 / 100, 0); (3 / 100, -1); (4 / 100, 2)].
Lemma demo_ok s b : (2 <= length s)%nat -> table_wf demo_table /\ acceptable demo_table s b.
Proof.
  intros L. split; [repeat constructor|]. split; [|split; [reflexivity|split; [exact L|]]].
  - exists true. split; [reflexivity|]. exists [[1; 225; 5 / 100; 2000; 1]], [0; 800; 2 / 100; 2200; 0]. split; [reflexivity|]. split.
    + constructor; [|constructor]. exists 1, 225, [5 / 100; 2000; 1]. split; [reflexivity|]. split; [lra|]. split; [lra|]. exists (5 / 100), 2000, 1%Z. split; [reflexivity|]. split; [lra|]. split; [lra|lia].
    + exists 0, 800, [2 / 100; 2200; 0]. split; [reflexivity|]. split; [lra|]. split; [lra|]. exists (2 / 100), 2200, 0%Z. split; [reflexivity|]. split; [lra|]. split; [lra|lia].
  - exists [[1; 225; 5 / 100; 2000; 1]], [0; 800; 2 / 100; 2200; 0]. split; [reflexivity|]. split; [reflexivity|]. intros _. discriminate.
Qed.
Example C24_instance : table_wf demo_table /\ (exists r, linear demo_table demo_odd Elastic = Ok r) /\ (exists r, linear demo_table demo_even Elastic = Ok r) /\
  first_step demo_odd = Ok (1 / 100) /\ Nat.Odd (length demo_odd) /\
  Forall (fun x => cell 0 x <= cell 1 x / 225 \/ ~ near_integer (cell 0 x / (cell 1 x / 225))) (removelast (t_rows demo_table)).
Proof.
  destruct (demo_ok demo_odd Elastic) as [W A]; [cbn; lia|]. destruct (demo_ok demo_even Elastic) as [_ A']; [cbn; lia|]. split; [exact W|].
  split; [apply C56_accepts_iff; assumption|]. split; [apply C56_accepts_iff; assumption|]. split; [unfold first_step, get, times, demo_odd; cbn; f_equal; lra|].
  split; [exists 2%nat; reflexivity|]. change (removelast (t_rows demo_table)) with [[1; 225; 5 / 100; 2000; 1]]. constructor; [|constructor]. left. unfold cell. cbn [nth]. lra.
Qed.
Example C25_instance : (exists r, linear demo_table demo_even Rigid = Ok r) /\ (forall dt, first_step demo_even = Ok dt -> 0 < dt) /\
  (let t := mktable false 5 [[0; 800; 2 / 100; 2200; 0]] in table_wf t /\ exists r, linear t demo_even Elastic = Ok r).
Proof.
  destruct (demo_ok demo_even Rigid) as [W A]; [cbn; lia|]. split; [apply C56_accepts_iff; assumption|]. split.
  - intros dt H. unfold first_step, get, times, demo_even in H. cbn in H. injection H as <-. lra.
  - intros t. split; [repeat constructor|]. apply C56_accepts_iff; [repeat constructor|]. split; [|split; [reflexivity|split; [cbn; lia|]]].
    + exists true. split; [reflexivity|]. exists [], [0; 800; 2 / 100; 2200; 0]. split; [reflexivity|]. split; [constructor|].
      exists 0, 800, [2 / 100; 2200; 0]. split; [reflexivity|]. split; [lra|]. split; [lra|]. exists (2 / 100), 2200, 0%Z. split; [reflexivity|]. split; [lra|]. split; [lra|lia].
    + exists [], [0; 800; 2 / 100; 2200; 0]. split; [reflexivity|]. split; [reflexivity|]. intros H. discriminate.
Qed.
Example C56_instance : acceptable demo_table demo_even Elastic /\ acceptable demo_table demo_odd Rigid.
Proof. split; apply demo_ok; cbn; lia. Qed.
