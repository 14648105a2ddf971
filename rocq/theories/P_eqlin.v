(** Lemmas about the equivalent-linear iteration. *)
From Coq Require Import Reals List Bool ZArith Lia Lra Psatz.
From Coquelicot Require Import Coquelicot.
From Coq Require Import List.
From Verif Require Import Base M_generic P_generic M_profile P_profile Prop_profile M_vs_profile P_vs_profile M_motion M_interp P_interp M_dft P_dft M_spectra P_spectra M_linear P_linear Prop_linear M_simlin P_simlin Prop_simlin Prop_simkin M_eqlin.
Import ListNotations.
Open Scope R_scope.

Definition ival (pts : list (R * R)) (x : R) : R := match interp1 pts x with Ok y => y | Err _ => 0 end.
Lemma interp1_ival pts x : pts <> [] -> interp1 pts x = Ok (ival pts x).
Proof. intros H. unfold ival. destruct pts as [|[a b] l]; [congruence|]. reflexivity. Qed.
Lemma ival_pl pts x : incr pts -> pts <> [] -> pl_value pts x (ival pts x).
Proof. intros I N. destruct (interp1_spec pts x I N) as (y & E & P). unfold ival. rewrite E. exact P. Qed.

Definition row0 := mkrow 0 0 [].
Definition elay0 := mkelay 0 0 0 0.
Definition ec0 := mkecurve [] [] [] [].

Definition resp_of N dt ls b A Rg : response :=
  let n := length ls in
  mkresponse (map (H_col N dt ls (ratios_of b ls)) (seq 0 n)) (map (acc_of N dt ls b A) (seq 0 n))
    (map (fun k => integrate dt (acc_of N dt ls b A k)) (seq 0 n)) (map (dis_of N dt ls b A) (seq 0 n))
    (map (gam_of N dt ls b A) (seq 0 (n - 1))) (map (fun k => Rg * max_abs (gam_of N dt ls b A k)) (seq 0 (n - 1))).

Lemma elays_length p st : length st = length p -> length (elays p st) = length p.
Proof. intros H. unfold elays. rewrite map_length, combine_length. lia. Qed.
Lemma elays_nth p st k : length st = length p -> (k < length p)%nat ->
  nth k (elays p st) elay0 = let r := nth k p row0 in let m := nth k st (0, 0) in mkelay (r_h r) (fst m) (snd m) (nth 1 (r_rest r) 0).
Proof.
  intros L H. unfold elays. rewrite (map_nth' _ _ k (row0, (0, 0))) by (rewrite combine_length; lia). rewrite combine_nth by lia. reflexivity.
Qed.
Lemma initial_elays p : elays p (initial p) = map elay_of p.
Proof. unfold elays, initial. induction p as [|r p IH]; [reflexivity|]. cbn [map combine]. f_equal. exact IH. Qed.
Lemma initial_length p : length (initial p) = length p.
Proof. apply map_length. Qed.

(** ** The loop *)
Section Run.
  Variables (p : list row) (cs : list ecurve) (b : boundary) (ev : bool) (tm : list R) (dt : R) (A : list C) (Rg : R).
  Let inp := mkinputs ev p tm dt A.
  Definition eff_of (st : moduli) (k : nat) : R := Rg * max_abs (gam_of (length A) dt (elays p st) b A k).
  Definition renewed (st : moduli) (k : nat) : R * R :=
    let c := nth k cs ec0 in (e_G (elay_of (nth k p row0)) * ival (table_G c) (eff_of st k), ival (table_D c) (eff_of st k)).
  Definition next_st (st : moduli) : moduli := map (renewed st) (seq 0 (length p - 1)) ++ [last st (0, 0)].
  Definition traj (m : nat) (st : moduli) : moduli := Nat.iter m next_st st.

  Hypothesis NP : p <> [].
  Hypothesis LC : length cs = (length p - 1)%nat.
  Hypothesis HB : b = Rigid -> (2 <= length p)%nat.

  Lemma next_length st : length (next_st st) = length p.
  Proof. unfold next_st. rewrite app_length, map_length, seq_length. cbn [length]. destruct p; [congruence|cbn [length]; lia]. Qed.
  Lemma traj_length m st : length st = length p -> length (traj m st) = length p.
  Proof. intros H. destruct m; [exact H|]. apply next_length. Qed.

  Lemma iteration_ok st : length st = length p ->
    iteration inp cs b Rg st = Ok (resp_of (length A) dt (elays p st) b A Rg, next_st st).
  Proof.
    intros L. unfold iteration. unfold inp. cbn [in_profile in_A in_dt]. pose proof (elays_length p st L) as LE.
    assert (NE : elays p st <> []) by (intros E; rewrite E in LE; destruct p; [congruence|discriminate]).
    rewrite (lin_resp_ok _ _ _ b _ _ NE) by (rewrite LE; exact HB). cbn [bind rs_eff]. rewrite LE.
    rewrite (map_res_ok _ (fun q => (e_G (elay_of (snd (fst q))) * ival (table_G (fst (fst q))) (snd q), ival (table_D (fst (fst q))) (snd q)))).
    - cbn [bind]. unfold resp_of. rewrite LE. f_equal. f_equal. unfold next_st. f_equal.
      apply (nth_ext _ _ (0, 0) (0, 0)).
      + rewrite !map_length, !combine_length, !map_length, !seq_length. lia.
      + intros k Hk. rewrite map_length, !combine_length, map_length, seq_length in Hk.
        rewrite (map_nth' _ _ k ((ec0, row0), 0)) by (rewrite !combine_length, map_length, seq_length; exact Hk).
        rewrite nth_seq_map by lia.
        assert (CN : forall (u : list (ecurve * row)) (v : list R), (k < length u)%nat -> (k < length v)%nat -> nth k (combine u v) ((ec0, row0), 0) = (nth k u (ec0, row0), nth k v 0)).
        { intros u v. clear. revert k. revert v. induction u as [|x u IH]; intros [|y v] [|k] H1 H2; cbn in *; try lia; [reflexivity|]. apply IH; lia. }
        assert (CN2 : forall (u : list ecurve) (v : list row), (k < length u)%nat -> (k < length v)%nat -> nth k (combine u v) (ec0, row0) = (nth k u ec0, nth k v row0)).
        { intros u v. clear. revert k. revert v. induction u as [|x u IH]; intros [|y v] [|k] H1 H2; cbn in *; try lia; [reflexivity|]. apply IH; lia. }
        rewrite CN by (rewrite ?combine_length, ?map_length, ?seq_length; lia). rewrite CN2 by lia. rewrite nth_seq_map by lia. reflexivity.
    - intros [[c r] e] _. cbn [fst snd]. unfold renew. rewrite !interp1_ival by discriminate. reflexivity.
  Qed.

  Lemma traj_next m st : traj m (next_st st) = traj (S m) st.
  Proof. induction m as [|m IH]; [reflexivity|]. change (traj (S m) (next_st st)) with (next_st (traj m (next_st st))). rewrite IH. reflexivity. Qed.

  Lemma iterate_ok tol vb n : forall st o, length st = length p -> (2 <= length p)%nat -> (1 <= n)%nat ->
    exists m, (1 <= m <= n)%nat /\
      iterate inp cs b Rg tol vb n st o = Ok (traj m st, resp_of (length A) dt (elays p (traj (m - 1) st)) b A Rg) /\
      (vb = false -> m = n) /\
      (vb = true -> (forall j, (1 <= j < m)%nat -> all_settled tol (traj (j - 1) st) (traj j st) = false) /\
                    ((m < n)%nat -> all_settled tol (traj (m - 1) st) (traj m st) = true)).
  Proof.
    induction n as [|n IH]; intros st o L L2 H1; [lia|]. cbn [iterate]. rewrite iteration_ok by exact L. cbn [bind].
    assert (NR : exists x l, removelast st = x :: l).
    { pose proof (removelast_length st) as RL. destruct (removelast st) as [|x l]; [cbn in RL; lia|eauto]. }
    destruct NR as (x & l & ->). destruct (all_settled tol st (next_st st) && vb) eqn:ES.
    - apply andb_true_iff in ES as [ES Ev]. exists 1%nat. split; [lia|]. split; [reflexivity|]. split; [intros E; rewrite E in Ev; discriminate|].
      intros _. split; [intros j Hj; lia|]. intros _. exact ES.
    - destruct n as [|n].
      + exists 1%nat. split; [lia|]. cbn [iterate]. split; [reflexivity|]. split; [reflexivity|]. intros _. split; [intros j Hj; lia|lia].
      + destruct (IH (next_st st) (Some (resp_of (length A) dt (elays p st) b A Rg)) (next_length st) L2 ltac:(lia)) as (m & Hm & EI & F1 & F2).
        exists (S m). split; [lia|]. rewrite EI. rewrite traj_next. replace (S m - 1)%nat with (S (m - 1)) by lia. rewrite traj_next. split; [reflexivity|].
        split; [intros E; rewrite (F1 E); reflexivity|]. intros E. destruct (F2 E) as [G1 G2]. split.
        * intros j Hj. destruct (Nat.eq_dec j 1) as [->|J1]; [rewrite E, andb_true_r in ES; exact ES|].
          specialize (G1 (j - 1)%nat ltac:(lia)). rewrite !traj_next in G1. replace (S (j - 1 - 1)) with (j - 1)%nat in G1 by lia. replace (S (j - 1)) with j in G1 by lia. exact G1.
        * intros Hn. specialize (G2 ltac:(lia)). rewrite !traj_next in G2. exact G2.
  Qed.
  Lemma iterate_single tol vb n st o : length p = 1%nat -> length st = 1%nat -> (1 <= n)%nat -> iterate inp cs b Rg tol vb n st o = Err ValueError.
  Proof.
    intros L1 Ls Hn. destruct n; [lia|]. cbn [iterate]. rewrite iteration_ok by lia. cbn [bind].
    destruct st as [|x [|y st]]; try discriminate. reflexivity.
  Qed.
End Run.

(** ** What is returned *)
Definition eq_outcome (s : signal) (p : list row) (st st' : moduli) (dt : R) (b : boundary) : simres :=
  let ls := elays p st in let n := length p in let N := run_N s in let A := run_A s in let ev := Nat.even (length s) in
  let half := ((N + 1) / 2)%nat in let m := if ev then (half - 1)%nat else half in
  let tr (f : nat -> list R) (n : nat) := map (fun k => trim ev (f k)) (seq 0 n) in
  let a := tr (acc_of N dt ls b A) n in
  let v := tr (fun k => integrate dt (acc_of N dt ls b A k)) n in
  let d := tr (dis_of N dt ls b A) n in
  let g := tr (gam_of N dt ls b A) (n - 1)%nat in
  let u := tr (fun k => stress_col (nth k (elays p st') elay0) (gam_of N dt ls b A k)) (n - 1)%nat in
  mksimres (set_damping p st') (firstn m (map (fun i => INR (S i) / (INR N * dt)) (seq 0 N)))
    (map (fun z => Cdiv z (RtoC 2)) (firstn m (H_col N dt ls (ratios_of b ls) 0)))
    (combine (times s) (nth 0 a [])) a v d g u
    (combine (z_top_from 0 (map r_h p)) (combine (combine (map max_abs a) (map max_abs v)) (map max_abs d)))
    (combine (removelast (z_mid_from 0 (map r_h p))) (combine (map max_abs g) (map max_abs u))).

Lemma set_damping_h p st : length st = length p -> map r_h (set_damping p st) = map r_h p.
Proof.
  intros L. unfold set_damping. rewrite map_map. cbn [r_h]. revert st L. induction p as [|r p IH]; intros [|m st] L; try discriminate; [reflexivity|]. cbn [combine map fst snd]. f_equal. apply IH. cbn in L. lia.
Qed.
Lemma stress_cols ls f n : n = (length ls - 1)%nat -> calc_stress ls (map f (seq 0 n)) = map (fun k => stress_col (nth k ls elay0) (f k)) (seq 0 n).
Proof.
  intros ->.
  unfold calc_stress.
  assert (E : removelast ls = map (fun k => nth k ls elay0) (seq 0 (length ls - 1))).
  { apply (nth_ext _ _ elay0 elay0); [rewrite removelast_length, map_length, seq_length; reflexivity|]. intros k Hk. rewrite removelast_length in Hk.
    rewrite nth_removelast by exact Hk. rewrite nth_seq_map by exact Hk. reflexivity. }
  rewrite E at 1. rewrite combine_map, map_map. generalize (seq 0 (length ls - 1)). intros q. induction q as [|k q IH]; [reflexivity|]. cbn [combine map fst snd]. f_equal. exact IH.
Qed.
Lemma eq_post s p st st' dt b Rg pi pl : length st = length p -> length st' = length p -> p = pi ++ [pl] -> r_h pl = 0 ->
  post (mkinputs (Nat.even (length s)) p (pad_time (times s) dt) dt (run_A s)) (set_damping p st') (run_N s)
    (resp_of (run_N s) dt (elays p st) b (run_A s) Rg) (calc_stress (elays p st') (rs_gamma (resp_of (run_N s) dt (elays p st) b (run_A s) Rg))) = Ok (eq_outcome s p st st' dt b).
Proof.
  intros L L' EP Z. pose proof (elays_length p st L) as LE. pose proof (elays_length p st' L') as LE'.
  unfold post, resp_of. cbn [in_even in_dt in_t rs_a rs_v rs_d rs_gamma rs_H]. rewrite LE.
  rewrite stress_cols by (rewrite LE'; reflexivity). rewrite set_damping_h by exact L'. rewrite !map_map.
  assert (NP : map r_h p <> []) by (rewrite EP, map_app; destruct (map r_h pi); discriminate).
  rewrite (thk2dep_top _ NP). cbn [bind].
  assert (EM : thk2dep (map r_h p) true = Ok (removelast (z_mid_from 0 (map r_h p)))).
  { unfold thk2dep. replace (last_res (map r_h p)) with (Ok (r_h pl)) by (rewrite EP, map_app; cbn [map]; rewrite last_res_app; reflexivity). cbn [bind negb]. rewrite (proj2 (Reqb_true _ _) Z). reflexivity. }
  rewrite EM. cbn [bind].
  rewrite removelast_length, z_mid_length, map_length, combine_length, !map_length, seq_length, Nat.min_id, Nat.eqb_refl. cbn [negb].
  unfold eq_outcome. rewrite !map_map. rewrite trim_pad_time. f_equal. f_equal.
  rewrite EP. rewrite app_length. cbn [length]. replace (length pi + 1)%nat with (S (length pi)) by lia. reflexivity.
Qed.
