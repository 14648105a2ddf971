(** C94: amplification and transfer functions of a profile, and its fundamental frequencies. *)
From Coq Require Import Reals List Bool ZArith Lia Lra Psatz.
From Coquelicot Require Import Coquelicot.
From Coq Require Import List.
From Verif Require Import Base M_generic P_generic M_profile P_profile Prop_profile M_vs_profile P_vs_profile M_motion Prop_motion_ops M_interp P_interp M_dft P_dft M_linear P_linear Prop_linear M_amplify M_freqspec Prop_freqspec M_vsspec.
Import ListNotations.
Open Scope list_scope.
Open Scope R_scope.

(** ** Specification *)

(** The spectrum holds the values of [g] (a function of the circular frequency) at the
    multiples of [res_f] up to [fmax]. *)
Record curve (res_f fmax : R) (s : fspec) (g : R -> C) : Prop := mkcurve {
  cv_two : (2 <= fs_npts s)%nat;
  cv_last : INR (fs_npts s) * res_f <= fmax < INR (S (fs_npts s)) * res_f;
  cv_freqs : length (fs_freq s) = fs_npts s;
  cv_specs : length (fs_spec s) = fs_npts s;
  cv_df : fs_df s = res_f;
  cv_freq : forall i, (i < fs_npts s)%nat -> nth i (fs_freq s) 0 = INR (S i) * res_f;
  cv_spec : forall i, (i < fs_npts s)%nat -> nth i (fs_spec s) (RtoC 0) = g (2 * PI * (INR (S i) * res_f)) }.

Lemma stacked_ok f v : length v = length f -> (2 <= length f)%nat ->
  exists s, stacked f v = Ok s /\ fs_freq s = f /\ fs_spec s = v /\ fs_npts s = length f /\ fs_df s = nth 1 f 0 - nth 0 f 0.
Proof.
  intros HL H2. unfold stacked. destruct (fs_init (CD2 (combine f v)) None None) as [s|e] eqn:E.
  - exists s. split; [reflexivity|]. apply C84_attributes in E as (rows & d & K & Ed & _ & En & Ef & Es & _). cbn [kept] in K. destruct K as (_ & -> & ->).
    assert (M1 : map fst (combine f v) = f) by (clear - HL; revert v HL; induction f as [|a f IH]; intros [|b v] HL; try discriminate; [reflexivity|cbn; f_equal; apply IH; cbn in HL; lia]).
    assert (M2 : map snd (combine f v) = v) by (clear - HL; revert v HL; induction f as [|a f IH]; intros [|b v] HL; try discriminate; [reflexivity|cbn; f_equal; apply IH; cbn in HL; lia]).
    rewrite Ef, Es, En, M1, M2. split; [reflexivity|]. split; [reflexivity|]. split; [rewrite combine_length; lia|]. rewrite Ed.
    destruct f as [|a [|b f]], v as [|x [|y v]]; cbn in HL, H2 |- *; try lia; reflexivity.
  - exfalso. apply C84_errors in E. destruct f as [|a [|b f]], v as [|x [|y v]]; cbn in HL, H2, E; try lia; exact E.
Qed.

Lemma three_ok (f : list R) (a b c : list C) : length a = length f -> length b = length f -> length c = length f -> (2 <= length f)%nat ->
  exists x y z, (let! ro := stacked f a in let! bh := stacked f b in let! inc := stacked f c in Ok (ro, bh, inc)) = Ok (x, y, z) /\
    stacked f a = Ok x /\ stacked f b = Ok y /\ stacked f c = Ok z.
Proof.
  intros A B D E. destruct (stacked_ok f a A E) as (x & Ex & _). destruct (stacked_ok f b B E) as (y & Ey & _). destruct (stacked_ok f c D E) as (z & Ez & _).
  exists x, y, z. rewrite Ex, Ey, Ez. auto.
Qed.

Section Profile.
Variables (h : heap) (p : vsobj).
Let t := tbl h (o_tbl p).
Let ls := lays_of t.

Lemma of_curve res_f fmax r v g s : table_wf t -> 0 < res_f -> linear_tf t res_f fmax = Ok r -> length v = length (lr_freq r) ->
  (forall i, (i < length (lr_freq r))%nat -> nth i v (RtoC 0) = g (2 * PI * (INR (S i) * res_f))) ->
  stacked (lr_freq r) v = Ok s -> curve res_f fmax s g.
Proof.
  intros Wf Hr E Lv Hv Es. destruct (C23_result t res_f fmax r Wf Hr E) as (_ & N2 & B & GF & _).
  destruct (stacked_ok _ v Lv N2) as (s' & Es' & E1 & E2 & E3 & E4). rewrite Es in Es'. injection Es' as <-.
  constructor; rewrite ?E1, ?E2, ?E3, ?E4; auto; try lia.
  rewrite !GF by lia. cbn [INR]. lra.
Qed.

(** The two methods succeed on the same profiles and grids, which are those with two
    frequencies or more. *)
Theorem C94_accepts_iff : forall res_f fmax, table_wf t -> 0 < res_f ->
  ((exists s, get_ampl_function h p res_f fmax = Ok s) <-> valid_table t /\ 2 * res_f <= fmax) /\
  ((exists s, get_transfer_function h p res_f fmax = Ok s) <-> valid_table t /\ 2 * res_f <= fmax).
Proof.
  intros res_f fmax Wf Hr. rewrite <- (C23_accepts_iff t res_f fmax Wf Hr). unfold get_ampl_function, get_transfer_function. fold t.
  destruct (linear_tf t res_f fmax) as [r|e] eqn:E; cbn [bind].
  - destruct (C23_result t res_f fmax r Wf Hr E) as (_ & N2 & _ & _ & (L1 & L2 & L3) & _ & (A1 & A2 & A3) & _).
    split; (split; [intros _; eauto|intros _]).
    + destruct (three_ok (lr_freq r) (map RtoC (lr_AF_ro r)) (map RtoC (lr_AF_bh r)) (map RtoC (lr_AF_in r))) as (x & y & z & H & _);
        rewrite ?map_length, ?A1, ?A2, ?A3, ?map_length; auto. rewrite <- A1, <- A2, <- A3, H. eauto.
    + destruct (three_ok (lr_freq r) (lr_TF_ro r) (lr_TF_bh r) (lr_TF_in r)) as (x & y & z & H & _); auto. rewrite H. eauto.
  - split; (split; intros (s & H); discriminate).
Qed.

(** Otherwise both fail alike. *)
Theorem C94_errors : forall res_f fmax, 0 < res_f ->
  (forall e, check_Vs_profile_format (as_pyobj t) = Err e -> get_ampl_function h p res_f fmax = Err e /\ get_transfer_function h p res_f fmax = Err e) /\
  (valid_table t -> fmax < 0 -> get_ampl_function h p res_f fmax = Err ValueError /\ get_transfer_function h p res_f fmax = Err ValueError) /\
  (valid_table t -> 0 <= fmax < 2 * res_f ->
     get_ampl_function h p res_f fmax = Err UnboundLocalError /\ get_transfer_function h p res_f fmax = Err UnboundLocalError).
Proof.
  intros res_f fmax Hr. destruct (C23_errors t res_f fmax Hr) as (A & B & D). unfold get_ampl_function, get_transfer_function. fold t.
  split; [|split].
  - intros e H. rewrite (A e H). auto.
  - intros V H. rewrite (B V H). auto.
  - intros V H. rewrite (D V H). auto.
Qed.

(** The transfer functions, in the order outcrop, borehole, incident. *)
Theorem C94_transfer_functions : forall res_f fmax ro bh inc, table_wf t -> 0 < res_f ->
  get_transfer_function h p res_f fmax = Ok (ro, bh, inc) ->
  curve res_f fmax ro (fun w => tf_ro w ls) /\ curve res_f fmax bh (fun w => tf_bh w ls) /\ curve res_f fmax inc (fun w => tf_in w ls) /\
  fs_spec inc = map (Cmult (RtoC 2)) (fs_spec ro).
Proof.
  intros res_f fmax ro bh inc Wf Hr H. unfold get_transfer_function in H. fold t in H. apply bind_ok in H as (r & E & H).
  destruct (C23_result t res_f fmax r Wf Hr E) as (Cl & N2 & _ & _ & (L1 & L2 & L3) & V & _).
  apply bind_ok in H as (x & Ex & H). apply bind_ok in H as (y & Ey & H). apply bind_ok in H as (z & Ez & H). injection H as <- <- <-.
  assert (C1 : curve res_f fmax x (fun w => tf_ro w ls)) by (apply (of_curve res_f fmax r (lr_TF_ro r) _ x Wf Hr E L1); [intros i Hi; apply (V i Hi)|exact Ex]).
  assert (C2 : curve res_f fmax y (fun w => tf_bh w ls)) by (apply (of_curve res_f fmax r (lr_TF_bh r) _ y Wf Hr E L3); [intros i Hi; apply (V i Hi)|exact Ey]).
  assert (C3 : curve res_f fmax z (fun w => tf_in w ls)) by (apply (of_curve res_f fmax r (lr_TF_in r) _ z Wf Hr E L2); [intros i Hi; apply (V i Hi)|exact Ez]).
  split; [exact C1|]. split; [exact C2|]. split; [exact C3|].
  destruct (stacked_ok _ _ L1 N2) as (x' & Ex' & X1 & X2 & X3 & _). rewrite Ex in Ex'. injection Ex' as <-.
  destruct (stacked_ok _ _ L2 N2) as (z' & Ez' & Z1 & Z2 & Z3 & _). rewrite Ez in Ez'. injection Ez' as <-.
  rewrite X2, Z2. apply (nth_ext _ _ (RtoC 0) (Cmult (RtoC 2) (RtoC 0))); [rewrite map_length; lia|]. intros i Hi. rewrite map_nth.
  destruct (V i ltac:(lia)) as (V1 & V2 & _). rewrite V1, V2. apply C23_links; [|exact Cl].
  pose proof PI_RGT_0. assert (0 < INR (S i)) by (apply lt_0_INR; lia). apply Rmult_lt_0_compat; [lra|]. apply Rmult_lt_0_compat; lra.
Qed.

(** The amplification functions are their moduli: the same frequencies, no phase. *)
Theorem C94_amplification_functions : forall res_f fmax aro abh ainc ro bh inc, table_wf t -> 0 < res_f ->
  get_ampl_function h p res_f fmax = Ok (aro, abh, ainc) -> get_transfer_function h p res_f fmax = Ok (ro, bh, inc) ->
  curve res_f fmax aro (fun w => RtoC (Cmod (tf_ro w ls))) /\ curve res_f fmax abh (fun w => RtoC (Cmod (tf_bh w ls))) /\
  curve res_f fmax ainc (fun w => RtoC (Cmod (tf_in w ls))) /\
  (forall a s, In (a, s) [(aro, ro); (abh, bh); (ainc, inc)] ->
     fs_freq a = fs_freq s /\ amplitude a = amplitude s /\ iscomplex a = false /\ forall x, In x (phase a) -> x = 0) /\
  amplitude ainc = map (Rmult 2) (amplitude aro).
Proof.
  intros res_f fmax aro abh ainc ro bh inc Wf Hr HA HT. unfold get_ampl_function in HA. unfold get_transfer_function in HT. fold t in HA, HT.
  apply bind_ok in HA as (r & E & HA). rewrite E in HT. cbn [bind] in HT.
  destruct (C23_result t res_f fmax r Wf Hr E) as (Cl & N2 & _ & _ & (L1 & L2 & L3) & V & (A1 & A2 & A3) & A4 & _).
  apply bind_ok in HT as (x & Ex & HT). apply bind_ok in HT as (y & Ey & HT). apply bind_ok in HT as (z & Ez & HT). injection HT as <- <- <-.
  apply bind_ok in HA as (ax & Eax & HA). apply bind_ok in HA as (ay & Eay & HA). apply bind_ok in HA as (az & Eaz & HA). injection HA as <- <- <-.
  assert (NM : forall (v : list C) i, nth i (map RtoC (map Cmod v)) (RtoC 0) = RtoC (Cmod (nth i v (RtoC 0)))).
  { intros v i. replace (RtoC 0) with (RtoC (Cmod (RtoC 0))) at 1 by (rewrite Cmod_0; reflexivity). rewrite map_map. apply (map_nth (fun c => RtoC (Cmod c))). }
  assert (PR : forall v a s, length v = length (lr_freq r) -> stacked (lr_freq r) (map RtoC (map Cmod v)) = Ok a -> stacked (lr_freq r) v = Ok s ->
     fs_freq a = fs_freq s /\ amplitude a = amplitude s /\ iscomplex a = false /\ forall x, In x (phase a) -> x = 0).
  { intros v a s Lv Ea Es. destruct (stacked_ok _ v Lv N2) as (s' & Es' & S1 & S2 & _). rewrite Es in Es'. injection Es' as <-.
    destruct (stacked_ok (lr_freq r) (map RtoC (map Cmod v))) as (a' & Ea' & B1 & B2 & _); [rewrite !map_length; exact Lv|exact N2|]. rewrite Ea in Ea'. injection Ea' as <-.
    unfold amplitude, phase, iscomplex. rewrite S1, S2, B1, B2. split; [reflexivity|]. split; [|split].
    - rewrite !map_map. apply map_ext. intros c. rewrite Cmod_R. apply Rabs_pos_eq, Cmod_ge_0.
    - match goal with |- ?b = false => destruct b eqn:Q; [|reflexivity] end. apply existsb_exists in Q as (w & Hw & Q). rewrite map_map in Hw. apply in_map_iff in Hw as (q & <- & _).
      cbn in Q. destruct (Reqb_spec 0 0); [discriminate|lra].
    - intros w Hw. rewrite !map_map in Hw. apply in_map_iff in Hw as (q & <- & _). rewrite carg_real. destruct (Rltb_spec (Cmod q) 0) as [N|N]; [pose proof (Cmod_ge_0 q); lra|reflexivity]. }
  split; [|split; [|split; [|split]]].
  - apply (of_curve res_f fmax r (map RtoC (lr_AF_ro r)) _ ax Wf Hr E); [rewrite A1, !map_length; exact L1| |exact Eax]. intros i Hi. rewrite A1, NM. f_equal. f_equal. apply (V i Hi).
  - apply (of_curve res_f fmax r (map RtoC (lr_AF_bh r)) _ ay Wf Hr E); [rewrite A3, !map_length; exact L3| |exact Eay]. intros i Hi. rewrite A3, NM. f_equal. f_equal. apply (V i Hi).
  - apply (of_curve res_f fmax r (map RtoC (lr_AF_in r)) _ az Wf Hr E); [rewrite A2, !map_length; exact L2| |exact Eaz]. intros i Hi. rewrite A2, NM. f_equal. f_equal. apply (V i Hi).
  - rewrite A1 in Eax. rewrite A2 in Eaz. rewrite A3 in Eay. intros a s [Q|[Q|[Q|[]]]]; injection Q as <- <-; [exact (PR _ _ _ L1 Eax Ex)|exact (PR _ _ _ L3 Eay Ey)|exact (PR _ _ _ L2 Eaz Ez)].
  - destruct (stacked_ok (lr_freq r) (map RtoC (lr_AF_ro r))) as (a' & Ea' & _ & B2 & _); [rewrite A1, !map_length; exact L1|exact N2|]. rewrite Eax in Ea'. injection Ea' as <-.
    destruct (stacked_ok (lr_freq r) (map RtoC (lr_AF_in r))) as (z' & Ez' & _ & Z2 & _); [rewrite A2, !map_length; exact L2|exact N2|]. rewrite Eaz in Ez'. injection Ez' as <-.
    unfold amplitude. rewrite B2, Z2, A4, !map_map. apply map_ext. intros a. rewrite !Cmod_R, Rabs_mult, (Rabs_pos_eq 2) by lra. reflexivity.
Qed.

(** ** Fundamental frequencies *)

(** Both getters: the grid of 600 frequencies 0.05, 0.10, ..., 30 Hz. *)
Definition get_f0_of (outcrop : bool) : res R := if outcrop then get_f0_RO h p else get_f0_BH h p.
Definition gain (outcrop : bool) (i : nat) : R := Cmod ((if outcrop then tf_ro else tf_bh) (2 * PI * (INR (S i) * (5 / 100))) ls).

Lemma f0_spectrum o : table_wf t -> valid_table t -> exists s, get_f0_of o = get_f0 s /\ curve (5 / 100) 30 s (fun w => RtoC (Cmod ((if o then tf_ro else tf_bh) w ls))) /\ fs_npts s = 600%nat.
Proof.
  intros Wf V. assert (R0 : 0 < 5 / 100) by lra. assert (R1 : 2 * (5 / 100) <= 30) by lra.
  destruct (C94_accepts_iff (5 / 100) 30 Wf R0) as [HA HT]. destruct (proj2 HA (conj V R1)) as ([[a b] c] & EA). destruct (proj2 HT (conj V R1)) as ([[a' b'] c'] & ET).
  destruct (C94_amplification_functions _ _ _ _ _ _ _ _ Wf R0 EA ET) as (C1 & C2 & _).
  assert (N : forall s g, curve (5 / 100) 30 s g -> fs_npts s = 600%nat).
  { intros s g K. destruct (cv_last _ _ _ _ K) as [B1 B2]. assert (B3 : INR (fs_npts s) <= INR 600) by (rewrite (INR_IZR_INZ 600); cbn [Z.of_nat Pos.of_succ_nat Pos.succ]; lra).
    assert (B4 : INR 600 < INR (S (fs_npts s))) by (rewrite (INR_IZR_INZ 600); cbn [Z.of_nat Pos.of_succ_nat Pos.succ]; lra). apply INR_le in B3. apply INR_lt in B4. lia. }
  destruct o; [exists a|exists b]; (split; [unfold get_f0_of, get_f0_RO, get_f0_BH; rewrite EA; reflexivity|]); split; eauto.
Qed.

Lemma curve_amp res_f fmax s (g : R -> C) i : curve res_f fmax s (fun w => RtoC (Cmod (g w))) -> (i < fs_npts s)%nat ->
  nth i (amplitude s) 0 = Cmod (g (2 * PI * (INR (S i) * res_f))).
Proof.
  intros K Hi. unfold amplitude. replace 0 with (Cmod (RtoC 0)) at 1 by apply Cmod_0. rewrite map_nth, (cv_spec _ _ _ _ K i Hi), Cmod_R.
  apply Rabs_pos_eq, Cmod_ge_0.
Qed.

(** The frequency reported is the first one whose gain is not exceeded by the next one; 30 Hz
    when there is none (or only the last but one). *)
Theorem C94_f0 : forall o, table_wf t -> valid_table t ->
  (forall j, (j < 598)%nat -> gain o (S j) <= gain o j -> (forall i, (i < j)%nat -> gain o i < gain o (S i)) -> get_f0_of o = Ok (INR (S j) * (5 / 100))) /\
  ((forall i, (i < 598)%nat -> gain o i < gain o (S i)) -> get_f0_of o = Ok 30) /\
  exists j, (j < 600)%nat /\ get_f0_of o = Ok (INR (S j) * (5 / 100)).
Proof.
  intros o Wf V. destruct (f0_spectrum o Wf V) as (s & E & K & N). rewrite E. pose proof (cv_freqs _ _ _ _ K) as LF. pose proof (cv_specs _ _ _ _ K) as LS.
  assert (AM : forall i, (i < 600)%nat -> nth i (amplitude s) 0 = gain o i) by (intros i Hi; rewrite (curve_amp _ _ _ _ i K) by lia; reflexivity).
  assert (LA : length (amplitude s) = 600%nat) by (unfold amplitude; rewrite map_length; lia).
  destruct (C85_peak s ltac:(lia)) as (_ & F1 & F2). rewrite LS, N in F1, F2.
  assert (P1 : forall j, (j < 598)%nat -> gain o (S j) <= gain o j -> (forall i, (i < j)%nat -> gain o i < gain o (S i)) -> get_f0 s = Ok (INR (S j) * (5 / 100))).
  { intros j Hj Hd Hr. rewrite (F1 j); [rewrite (cv_freq _ _ _ _ K) by lia; reflexivity| |lia].
    split; [lia|]. split; [rewrite !AM by lia; exact Hd|]. intros i Hi. rewrite !AM by lia. apply Hr, Hi. }
  assert (P2 : (forall i, (i < 598)%nat -> gain o i < gain o (S i)) -> get_f0 s = Ok 30).
  { intros Hr. rewrite F2; [|lia|].
    - f_equal. rewrite P_motion.last_nth by (intros Q; rewrite Q in LF; cbn in LF; lia). rewrite LF, N. change (600 - 1)%nat with 599%nat. rewrite (cv_freq _ _ _ _ K) by lia.
      rewrite INR_IZR_INZ. cbn [Z.of_nat Pos.of_succ_nat Pos.succ]. lra.
    - intros j (D1 & D2 & D3). rewrite LA in D1. destruct (Nat.lt_ge_cases j 598) as [L|L]; [|lia]. rewrite !AM in D2 by lia. specialize (Hr j L). lra. }
  split; [exact P1|]. split; [exact P2|].
  destruct (drop_or_rising (amplitude s)) as [(j & Hj)|Hr].
  - destruct (Nat.lt_ge_cases j 598) as [L|L].
    + exists j. split; [lia|]. rewrite (F1 j Hj) by lia. rewrite (cv_freq _ _ _ _ K) by lia. reflexivity.
    + exists 599%nat. split; [lia|]. rewrite P2.
      * f_equal. rewrite INR_IZR_INZ. cbn [Z.of_nat Pos.of_succ_nat Pos.succ]. lra.
      * intros i Hi. rewrite <- !AM by lia. destruct Hj as (_ & _ & H). apply H. lia.
  - exists 599%nat. split; [lia|]. rewrite P2.
    + f_equal. rewrite INR_IZR_INZ. cbn [Z.of_nat Pos.of_succ_nat Pos.succ]. lra.
    + intros i Hi. rewrite <- !AM by lia. apply Hr. rewrite LA. lia.
Qed.
End Profile.

(** ** Uniform profiles *)
Lemma k_star_lin omega l : Re (k_star omega l) = omega * Re (k_star 1 l) /\ Im (k_star omega l) = omega * Im (k_star 1 l).
Proof.
  assert (E : k_star omega l = Cmult (RtoC omega) (k_star 1 l)) by (unfold k_star, Cdiv; ring).
  rewrite E. unfold Cmult, RtoC, Re, Im. cbn [fst snd]. split; ring.
Qed.

(** All rows of one material. *)
Definition one_material (t : table) : Prop := exists vs xi rho, forall r, In r (t_rows t) -> cell 1 r = vs /\ (t_ncol t <> 2%nat -> cell 2 r = xi /\ cell 3 r = rho).

Lemma one_material_lays t : valid_table t -> one_material t -> exists l hs h0, phys l /\ Forall (fun x => 0 <= x) hs /\ lays_of t = map (thick l) (hs ++ [h0]).
Proof.
  intros V (vs & xi & rho & U). pose proof (lays_of_column t V) as (i0 & l0 & El & Fi & Pl & _).
  assert (EM : exists l, l_h l = 0 /\ lays_of t = map (fun r => thick l (cell 0 r)) (t_rows t)).
  { rewrite lays_of_eq. destruct (Nat.eqb_spec (t_ncol t) 2) as [E|E].
    - exists (lay2 [0; vs]). split; [reflexivity|]. apply map_ext_in. intros r Hr. unfold lay2, thick. cbn [l_vs l_xi l_rho cell nth]. destruct (U r Hr) as [-> _]. reflexivity.
    - exists (mklay 0 vs xi rho). split; [reflexivity|]. apply map_ext_in. intros r Hr. unfold lay5, thick. cbn [l_vs l_xi l_rho]. destruct (U r Hr) as [-> Q]. destruct (Q E) as [-> ->]. reflexivity. }
  destruct EM as (l & H0 & EM). assert (NR : t_rows t <> []) by (intros Q; rewrite Q in EM; rewrite EM in El; destruct i0; discriminate).
  destruct (exists_last NR) as (rs & r & Er). rewrite Er, map_app in EM. cbn [map] in EM. rewrite EM in El. apply app_inj_tail in El as [E1 E2].
  exists l, (map (cell 0) rs), (cell 0 r). rewrite EM. split; [|split].
  - destruct Pl as (P1 & P2 & P3 & P4). rewrite <- E2 in P1, P2, P3. cbn in P1, P2, P3.
    unfold phys. rewrite H0. repeat split; auto; lra.
  - rewrite Forall_map. rewrite <- E1 in Fi. rewrite Forall_map in Fi. eapply Forall_impl; [|exact Fi]. intros x ((_ & _ & _ & Q) & _). exact Q.
  - rewrite map_app, map_map. reflexivity.
Qed.

(** Bare rock or any uniform profile has no peak: its fundamental frequency is reported as the
    lowest frequency of the grid. *)
Theorem C94_uniform_profile : forall h p, let t := tbl h (o_tbl p) in table_wf t -> valid_table t -> one_material t ->
  get_f0_RO h p = Ok (5 / 100).
Proof.
  intros h p t Wf V U. destruct (one_material_lays t V U) as (l & hs & h0 & P & Fh & El).
  destruct (C94_f0 h p true Wf V) as (F & _). specialize (F 0%nat ltac:(lia)). cbn [INR] in F. rewrite Rmult_1_l in F. apply F; [|intros; lia].
  assert (W : forall i, 0 < 2 * PI * (INR (S i) * (5 / 100))).
  { intros i. pose proof PI_RGT_0. assert (0 < INR (S i)) by (apply lt_0_INR; lia). apply Rmult_lt_0_compat; [lra|]. apply Rmult_lt_0_compat; lra. }
  unfold gain. fold t. rewrite El. destruct (C23_uniform_column _ l hs h0 P (W 0%nat) Fh) as (_ & _ & _ & -> & _). destruct (C23_uniform_column _ l hs h0 P (W 1%nat) Fh) as (_ & _ & _ & -> & _).
  destruct (k_star_parts 1 l P ltac:(lra)) as (_ & K & _). rewrite !(proj2 (k_star_lin (2 * PI * _) l)).
  assert (H0 : 0 <= rsum hs) by (clear - Fh; induction Fh; cbn; lra). pose proof PI_RGT_0. cbn [INR].
  set (a := 2 * PI * (1 * (5 / 100))). set (b := 2 * PI * ((1 + 1) * (5 / 100))). assert (AB : a <= b) by (unfold a, b; nra).
  assert (LE : b * Im (k_star 1 l) * rsum hs <= a * Im (k_star 1 l) * rsum hs) by (apply Rmult_le_compat_r; [exact H0|]; nra).
  destruct LE as [LE| ->]; [left; apply exp_increasing, LE|right; reflexivity].
Qed.

(** ** One layer on rock *)

(** The borehole curve of one layer does not depend on the rock. *)
Theorem C94_borehole_ignores_rock : forall h p p' r r1 r2, let t := tbl h (o_tbl p) in let t' := tbl h (o_tbl p') in
  table_wf t -> table_wf t' -> valid_table t -> valid_table t' -> t_ncol t = t_ncol t' -> t_rows t = [r; r1] -> t_rows t' = [r; r2] ->
  get_f0_BH h p = get_f0_BH h p' /\
  forall res_f fmax ro bh inc ro' bh' inc', 0 < res_f -> get_transfer_function h p res_f fmax = Ok (ro, bh, inc) ->
    get_transfer_function h p' res_f fmax = Ok (ro', bh', inc') -> fs_spec bh = fs_spec bh' /\ fs_freq bh = fs_freq bh'.
Proof.
  intros h p p' r r1 r2 t t' Wf Wf' V V' En Er Er'.
  assert (EL : exists l l1 l2, lays_of t = [l; l1] /\ lays_of t' = [l; l2] /\ phys l /\ phys l1 /\ phys l2).
  { pose proof (lays_of_column t V) as C1. pose proof (lays_of_column t' V') as C2. apply column_phys in C1 as [F1 _]. apply column_phys in C2 as [F2 _].
    rewrite lays_of_eq, Er in F1. rewrite lays_of_eq, Er' in F2. rewrite !lays_of_eq, Er, Er', <- En. rewrite <- En in F2. cbn [map] in *.
    do 3 eexists. split; [reflexivity|]. split; [reflexivity|]. inversion F1 as [|? ? Q1 F1']. inversion F1' as [|? ? Q2]. inversion F2 as [|? ? Q3 F2']. inversion F2' as [|? ? Q4]. auto. }
  destruct EL as (l & l1 & l2 & E1 & E2 & P & P1 & P2).
  assert (TB : forall w, 0 < w -> tf_bh w (lays_of t) = tf_bh w (lays_of t')).
  { intros w Hw. rewrite E1, E2. destruct (C23_single_layer w l l1 P P1 Hw) as [_ ->]. destruct (C23_single_layer w l l2 P P2 Hw) as [_ ->]. reflexivity. }
  assert (W : forall rf i, 0 < rf -> 0 < 2 * PI * (INR (S i) * rf)).
  { intros rf i Hr. pose proof PI_RGT_0. assert (0 < INR (S i)) by (apply lt_0_INR; lia). apply Rmult_lt_0_compat; [lra|]. apply Rmult_lt_0_compat; lra. }
  split.
  - destruct (C94_f0 h p false Wf V) as (F1 & F2 & _). destruct (C94_f0 h p' false Wf' V') as (G1 & G2 & _). cbn [get_f0_of] in *.
    assert (GE : forall i, gain h p false i = gain h p' false i) by (intros i; unfold gain; fold t t'; rewrite TB by (apply W; lra); reflexivity).
    destruct (drop_or_rising (map (gain h p false) (seq 0 599))) as [(j & D1 & D2 & D3)|RI].
    + rewrite map_length, seq_length in D1. assert (NT : forall i, (i < 599)%nat -> nth i (map (gain h p false) (seq 0 599)) 0 = gain h p false i).
      { intros i Hi. rewrite (nth_indep _ 0 (gain h p false 0)) by (rewrite map_length, seq_length; exact Hi). rewrite map_nth, seq_nth by exact Hi. reflexivity. }
      rewrite !NT in D2 by lia. assert (D3' : forall i, (i < j)%nat -> gain h p false i < gain h p false (S i)) by (intros i Hi; rewrite <- !NT by lia; apply D3, Hi).
      rewrite (F1 j) by (auto; lia). symmetry. apply G1; [lia|rewrite <- !GE; exact D2|intros i Hi; rewrite <- !GE; apply D3', Hi].
    + assert (NT : forall i, (i < 599)%nat -> nth i (map (gain h p false) (seq 0 599)) 0 = gain h p false i).
      { intros i Hi. rewrite (nth_indep _ 0 (gain h p false 0)) by (rewrite map_length, seq_length; exact Hi). rewrite map_nth, seq_nth by exact Hi. reflexivity. }
      assert (RI' : forall i, (i < 598)%nat -> gain h p false i < gain h p false (S i)) by (intros i Hi; rewrite <- !NT by lia; apply RI; rewrite map_length, seq_length; lia).
      rewrite F2 by exact RI'. symmetry. apply G2. intros i Hi. rewrite <- !GE. apply RI', Hi.
  - intros res_f fmax ro bh inc ro' bh' inc' Hr H H'. destruct (C94_transfer_functions h p _ _ _ _ _ Wf Hr H) as (_ & K & _). destruct (C94_transfer_functions h p' _ _ _ _ _ Wf' Hr H') as (_ & K' & _).
    assert (N : fs_npts bh = fs_npts bh').
    { destruct (cv_last _ _ _ _ K) as [A1 A2]. destruct (cv_last _ _ _ _ K') as [B1 B2].
      assert (Q1 : INR (fs_npts bh) < INR (S (fs_npts bh'))) by (apply Rmult_lt_reg_r with res_f; lra). assert (Q2 : INR (fs_npts bh') < INR (S (fs_npts bh))) by (apply Rmult_lt_reg_r with res_f; lra).
      apply INR_lt in Q1, Q2. lia. }
    split.
    + apply (nth_ext _ _ (RtoC 0) (RtoC 0)); [rewrite (cv_specs _ _ _ _ K), (cv_specs _ _ _ _ K'); exact N|]. intros i Hi. rewrite (cv_specs _ _ _ _ K) in Hi.
      rewrite (cv_spec _ _ _ _ K) by exact Hi. rewrite (cv_spec _ _ _ _ K') by lia. apply TB, W, Hr.
    + apply (nth_ext _ _ 0 0); [rewrite (cv_freqs _ _ _ _ K), (cv_freqs _ _ _ _ K'); exact N|]. intros i Hi. rewrite (cv_freqs _ _ _ _ K) in Hi.
      rewrite (cv_freq _ _ _ _ K) by exact Hi. rewrite (cv_freq _ _ _ _ K') by lia. reflexivity.
Qed.

(** *** The quarter wavelength *)
Lemma k_star_values l : phys l -> 0 < l_xi l -> exists al rho, Re (k_star 1 l) = al /\ Im (k_star 1 l) = - (rho * al) /\
  0 < rho <= l_xi l /\ / (l_vs l * (1 + 2 * l_xi l * l_xi l)) <= al <= / l_vs l.
Proof.
  intros P X. pose proof P as (V0 & _). set (z := csqrt (damp (l_xi l))). destruct (damp_root (l_xi l) ltac:(lra)) as (A & _ & B). specialize (B X). fold z in A, B.
  pose proof (csqrt_sq (damp (l_xi l))) as SQ. fold z in SQ.
  pose proof (f_equal Re SQ) as S1. pose proof (f_equal Im SQ) as S2. rewrite Re_mult, damp_Re in S1. rewrite Im_mult, damp_Im in S2.
  assert (E : Cmult (k_star 1 l) (vs_star l) = RtoC 1) by (unfold k_star; field; apply vs_star_neq, P).
  rewrite vs_star_eq in E. fold z in E. pose proof (f_equal Re E) as E1. pose proof (f_equal Im E) as E2. clear E SQ.
  rewrite !Re_mult, Im_mult, !Re_R, !Im_R in E1. rewrite !Im_mult, Re_mult, !Re_R, !Im_R in E2.
  set (a := Re z) in *. set (b := Im z) in *. set (x := Re (k_star 1 l)) in *. set (y := Im (k_star 1 l)) in *. set (v := l_vs l) in *. set (xi := l_xi l) in *. clearbody a b x y v xi.
  assert (A1 : 1 <= a) by nra. assert (B1 : b <= xi) by nra.
  assert (M : a * a + b * b = 1 + 2 * (b * b)) by nra. assert (BB : b * b <= xi * xi) by nra.
  assert (Q1 : x * (v * (a * a + b * b)) = a).
  { transitivity (a * (x * (v * a - 0 * b) - y * (v * b + 0 * a)) + b * (x * (v * b + 0 * a) + y * (v * a - 0 * b))); [ring|]. rewrite E1, E2. ring. }
  assert (Q2 : y * a = - (x * b)). { apply Rmult_eq_reg_l with v; [|lra]. lra. }
  exists x, (b / a). split; [reflexivity|]. split; [apply Rmult_eq_reg_r with a; [|lra]; rewrite Q2; field; lra|].
  split; [split; [apply Rdiv_lt_0_compat; lra|apply Rmult_le_reg_r with a; [lra|]; unfold Rdiv; rewrite Rmult_assoc, Rinv_l by lra; nra]|].
  assert (D : 0 < v * (a * a + b * b)) by (apply Rmult_lt_0_compat; nra). assert (Ex : x = a / (v * (a * a + b * b))) by (rewrite <- Q1 at 1; field; nra). split.
  - rewrite Ex. apply Rmult_le_reg_r with (v * (a * a + b * b)); [exact D|]. unfold Rdiv. rewrite (Rmult_assoc a), Rinv_l, Rmult_1_r by lra.
    apply Rmult_le_reg_l with (v * (1 + 2 * xi * xi)); [apply Rmult_lt_0_compat; nra|]. rewrite <- Rmult_assoc, Rinv_r, Rmult_1_l by nra.
    replace (v * (1 + 2 * xi * xi) * a) with (v * ((1 + 2 * xi * xi) * a)) by ring. apply Rmult_le_compat_l; nra.
  - rewrite Ex. apply Rmult_le_reg_r with (v * (a * a + b * b)); [exact D|]. unfold Rdiv. rewrite (Rmult_assoc a), Rinv_l, Rmult_1_r by lra.
    rewrite <- Rmult_assoc, Rinv_l, Rmult_1_l by lra. nra.
Qed.

(** The denominator of the borehole gain of one layer. *)
Definition den (X Y : R) : R := cos X * cos X + sinh Y * sinh Y.
Lemma single_gain w l lst : phys l -> phys lst -> 0 < l_xi l -> 0 < l_h l -> 0 < w ->
  let X := Re (k_star w l) * l_h l in let Y := - Im (k_star w l) * l_h l in
  0 < den X Y /\ Cmod (tf_bh w [l; lst]) * Cmod (tf_bh w [l; lst]) * den X Y = 1.
Proof.
  intros P P2 Xi Hh W X Y. destruct (C23_single_layer w l lst P P2 W) as [_ ->]. destruct (k_star_parts w l P W) as (K1 & _ & K2). specialize (K2 Xi).
  assert (Y0 : 0 < Y) by (unfold Y; nra).
  assert (D0 : 0 < den X Y).
  { unfold den. assert (0 < sinh Y). { unfold sinh. assert (exp (- Y) < exp Y) by (apply exp_increasing; lra). lra. } nra. }
  split; [exact D0|]. unfold up, down. destruct (exponents w l) as [-> ->]. fold X Y.
  set (c := Cdiv (Cplus (Cmult (RtoC (exp Y)) (cis X)) (Cmult (RtoC (exp (- Y))) (cis (- X)))) (RtoC 2)).
  assert (Ec : Cmod c * Cmod c = den X Y).
  { rewrite Cmod_sq. assert (R1 : Re c = cosh Y * cos X /\ Im c = sinh Y * sin X).
    { unfold c, Cdiv. rewrite <- RtoC_inv by lra. rewrite Re_mult, Im_mult, Re_R, Im_R. unfold Cplus, Cmult, RtoC, cis, Re, Im, cosh, sinh. cbn [fst snd]. rewrite cos_neg, sin_neg. split; field. }
    destruct R1 as [-> ->]. unfold den. assert (CS : cosh Y * cosh Y = 1 + sinh Y * sinh Y).
    { unfold cosh, sinh. assert (exp Y * exp (- Y) = 1) by (rewrite <- exp_plus; replace (Y + - Y) with 0 by ring; apply exp_0). nra. }
    assert (SC : sin X * sin X = 1 - cos X * cos X) by (pose proof (sin2_cos2 X) as Q; unfold Rsqr in Q; lra).
    transitivity (cosh Y * cosh Y * (cos X * cos X) + sinh Y * sinh Y * (sin X * sin X)); [ring|]. rewrite CS, SC. ring. }
  assert (N : c <> RtoC 0). { intros Q. rewrite Q, Cmod_0 in Ec. lra. }
  rewrite <- Ec. rewrite Cmod_div by exact N. rewrite Cmod_1. assert (0 < Cmod c) by (apply Cmod_gt_0, N). field. lra.
Qed.

Lemma den_diff x1 x2 y1 y2 : den x1 y1 - den x2 y2 = sin (x2 - x1) * sin (x1 + x2) - sinh (y2 - y1) * sinh (y1 + y2).
Proof.
  assert (A : cos x1 * cos x1 - cos x2 * cos x2 = sin (x2 - x1) * sin (x1 + x2)).
  { rewrite sin_minus, sin_plus. pose proof (sin2_cos2 x1) as Q1. pose proof (sin2_cos2 x2) as Q2. unfold Rsqr in *.
    transitivity (sin x2 * sin x2 * (cos x1 * cos x1) - sin x1 * sin x1 * (cos x2 * cos x2)); [|ring]. replace (sin x2 * sin x2) with (1 - cos x2 * cos x2) by lra. replace (sin x1 * sin x1) with (1 - cos x1 * cos x1) by lra. ring. }
  assert (B : sinh y2 * sinh y2 - sinh y1 * sinh y1 = sinh (y2 - y1) * sinh (y1 + y2)).
  { unfold sinh. assert (E : forall u v, exp (u - v) = exp u * exp (- v)) by (intros; unfold Rminus; apply exp_plus). rewrite !Ropp_plus_distr, !Ropp_minus_distr, E.
    replace (y1 - y2) with (y1 + - y2) by ring. rewrite !exp_plus.
    assert (I1 : exp y1 * exp (- y1) = 1) by (rewrite <- exp_plus; replace (y1 + - y1) with 0 by ring; apply exp_0).
    assert (I2 : exp y2 * exp (- y2) = 1) by (rewrite <- exp_plus; replace (y2 + - y2) with 0 by ring; apply exp_0).
    set (a := exp y1) in *. set (b := exp (- y1)) in *. set (c := exp y2) in *. set (d := exp (- y2)) in *. clearbody a b c d.
    replace ((c * b - a * d) / 2 * ((a * c - b * d) / 2)) with ((a * b * (c * c) - c * d * (b * b) - c * d * (a * a) + a * b * (d * d)) / 4) by field. rewrite I1, I2.
    replace ((c - d) / 2 * ((c - d) / 2) - (a - b) / 2 * ((a - b) / 2)) with ((c * c - 2 * (c * d) + d * d - a * a + 2 * (a * b) - b * b) / 4) by field. rewrite I1, I2. field. }
  unfold den. rewrite <- A, <- B. ring.
Qed.

Lemma sinh_le y : 0 <= y <= 1 / 2 -> 0 <= sinh y <= 2 * y.
Proof.
  intros Y. assert (I : exp y * exp (- y) = 1) by (rewrite <- exp_plus; replace (y + - y) with 0 by ring; apply exp_0).
  assert (U : 1 - y <= exp (- y)) by (pose proof (exp_ineq1_le (- y)); lra). assert (V : 1 + y <= exp y) by apply exp_ineq1_le.
  unfold sinh. set (a := exp y) in *. set (b := exp (- y)) in *. clearbody a b. split; nra.
Qed.
Lemma PI_lt : PI < 32 / 10.
Proof.
  destruct (Rlt_or_le PI (32 / 10)) as [|C]; [assumption|exfalso]. pose proof PI_RGT_0.
  assert (0 <= cos (16 / 10)) by (apply cos_ge_0; lra).
  destruct (pre_cos_bound (16 / 10) 0 ltac:(lra) ltac:(lra)) as [_ B]. unfold cos_approx, cos_term in B. cbn in B. lra.
Qed.
Lemma sin_cubic x : 0 <= x <= 2 -> x - x * x * x / 6 <= sin x.
Proof.
  intros X. destruct (pre_sin_bound x 0 ltac:(lra) ltac:(lra)) as [B _]. unfold sin_approx, sin_term in B. cbn in B. lra.
Qed.
Lemma sin_ge x : 0 <= x <= PI / 2 -> 57 / 100 * x <= sin x.
Proof. intros [X0 X1]. pose proof PI_lt. pose proof (sin_cubic x ltac:(lra)). assert (x * x <= 256 / 100) by nra. nra. Qed.
Lemma sin_ge_small x : 0 <= x <= PI / 4 -> 89 / 100 * x <= sin x.
Proof. intros [X0 X1]. pose proof PI_lt. pose proof (sin_cubic x ltac:(lra)). assert (x * x <= 64 / 100) by nra. nra. Qed.

(** Below the quarter wavelength (less a correction for damping) the gain rises, above it the
    gain falls. *)
Lemma den_rises x1 x2 rho xi : 0 < rho <= xi -> xi <= 1 / 8 -> 0 <= x1 < x2 -> x2 - x1 <= PI / 4 -> x1 + x2 <= PI * (1 - 10 * (xi * xi)) ->
  den x2 (rho * x2) < den x1 (rho * x1).
Proof.
  intros Hr Hx Hx12 Hd Hs. apply Rminus_gt_0_lt. rewrite den_diff. replace (rho * x2 - rho * x1) with (rho * (x2 - x1)) by ring. replace (rho * x1 + rho * x2) with (rho * (x1 + x2)) by ring.
  pose proof PI_lt as P1. pose proof PI_RGT_0 as P0. set (d := x2 - x1) in *. set (s := x1 + x2) in *. assert (D : 0 < d <= s) by (unfold d, s; lra). clearbody d s.
  assert (X2 : 0 < xi * xi) by nra. assert (S1 : s <= PI) by nra.
  destruct (sinh_le (rho * d) ltac:(nra)) as [H1 H2]. destruct (sinh_le (rho * s) ltac:(nra)) as [H3 H4].
  assert (HP : sinh (rho * d) * sinh (rho * s) <= 4 * (xi * xi) * (d * s)).
  { apply Rle_trans with (2 * (rho * d) * (2 * (rho * s))); [apply Rmult_le_compat; lra|]. assert (rho * rho <= xi * xi) by nra. assert (0 <= d * s) by nra. nra. }
  pose proof (sin_ge_small d ltac:(lra)) as SD.
  assert (SS : 4 * (xi * xi) * s < 89 / 100 * sin s).
  { destruct (Rle_or_lt s (PI / 2)) as [L|L].
    - pose proof (sin_ge s ltac:(lra)). nra.
    - pose proof (sin_ge (PI - s) ltac:(lra)) as Q. rewrite sin_PI_x in Q. nra. }
  assert (0 < sin s) by nra. assert (89 / 100 * d * sin s <= sin d * sin s) by (apply Rmult_le_compat_r; lra). nra.
Qed.
Lemma den_falls x1 x2 rho : 0 < rho -> PI / 2 <= x1 <= x2 -> x2 - x1 <= PI -> x2 <= PI -> den x1 (rho * x1) <= den x2 (rho * x2).
Proof.
  intros Hr Hx Hd H2. pose proof PI_RGT_0. apply Rminus_le. rewrite den_diff. replace (rho * x2 - rho * x1) with (rho * (x2 - x1)) by ring. replace (rho * x1 + rho * x2) with (rho * (x1 + x2)) by ring.
  assert (S1 : 0 <= sin (x2 - x1)) by (apply sin_ge_0; lra). assert (S2 : sin (x1 + x2) <= 0) by (apply sin_le_0; lra).
  assert (SH : forall y, 0 <= y -> 0 <= sinh y). { intros y Hy. unfold sinh. destruct Hy as [Hy| <-]; [|rewrite Ropp_0; lra]. assert (exp (- y) < exp y) by (apply exp_increasing; lra). lra. }
  pose proof (SH (rho * (x2 - x1)) ltac:(nra)). pose proof (SH (rho * (x1 + x2)) ltac:(nra)). nra.
Qed.

(** The borehole fundamental frequency of one layer (thickness H, velocity Vs, damping xi up to
    12.5 %) on rock is Vs/(4H) up to a step of the grid and a correction for damping, as long
    as that lies between 0.1 and 29.9 Hz. *)
Theorem C94_quarter_wavelength : forall h p l lst, let t := tbl h (o_tbl p) in table_wf t -> valid_table t -> lays_of t = [l; lst] ->
  let fq := l_vs l / (4 * l_h l) in let c := l_xi l * l_xi l in l_xi l <= 1 / 8 -> 1 / 10 <= fq -> fq * (1 + 2 * c) <= 299 / 10 ->
  exists f, get_f0_BH h p = Ok f /\ fq * (1 - 10 * c) - 25 / 1000 < f < fq * (1 + 2 * c) + 5 / 100.
Proof.
  intros h p l lst t Wf V El fq c Xi F1 F2.
  assert (PH : phys l /\ 0 < l_xi l /\ 0 < l_h l /\ phys lst).
  { destruct (lays_of_column t V) as (i0 & l0 & E & Fi & Pl & _). rewrite El in E. destruct i0 as [|x [|y i0]]; [discriminate| |injection E as _ _ E; destruct i0; discriminate].
    injection E as <- <-. inversion Fi as [|? ? Q _]. destruct Q as (Q1 & Q2 & Q3). auto. }
  destruct PH as (P & X0 & H0 & P2). pose proof P as (V0 & _). destruct (k_star_values l P X0) as (al & rho & Ea & Ei & Hrho & A1 & A2).
  set (hh := l_h l) in *. set (v := l_vs l) in *. set (xi := l_xi l) in *. assert (C0 : 0 < c) by (unfold c; nra).
  assert (AL : 0 < al) by (eapply Rlt_le_trans; [|exact A1]; apply Rinv_0_lt_compat, Rmult_lt_0_compat; nra).
  (* x i : the phase across the layer at grid frequency i *)
  pose proof PI_RGT_0 as PP. set (u := 2 * PI * (5 / 100) * al * hh). set (x := fun i => INR (S i) * u).
  set (q := / (4 * hh * al)). assert (Q0 : 0 < q) by (apply Rinv_0_lt_compat; nra).
  assert (Q1 : fq <= q). { unfold fq, q. apply Rmult_le_reg_r with (4 * hh * al); [nra|]. rewrite Rinv_l by nra. unfold Rdiv. replace (v * / (4 * hh) * (4 * hh * al)) with (v * al) by (field; lra).
    apply Rmult_le_reg_l with (/ v); [apply Rinv_0_lt_compat, V0|]. rewrite <- Rmult_assoc, Rinv_l, Rmult_1_l, Rmult_1_r by lra. exact A2. }
  assert (Q2 : q <= fq * (1 + 2 * c)). { unfold fq, q, c. apply Rmult_le_reg_r with (4 * hh * al); [nra|]. rewrite Rinv_l by nra.
    replace (v / (4 * hh) * (1 + 2 * (xi * xi)) * (4 * hh * al)) with (v * (1 + 2 * xi * xi) * al) by (field; lra).
    apply Rmult_le_reg_l with (/ (v * (1 + 2 * xi * xi))); [apply Rinv_0_lt_compat; nra|]. rewrite <- Rmult_assoc, Rinv_l, Rmult_1_l, Rmult_1_r by nra. exact A1. }
  assert (U : u * q = PI / 2 * (5 / 100)) by (unfold u, q; field; split; apply Rgt_not_eq; assumption). assert (U0 : 0 < u) by (unfold u; apply Rmult_lt_0_compat; [|exact H0]; apply Rmult_lt_0_compat; [|exact AL]; lra).
  assert (U1 : u <= PI / 4) by nra.
  assert (XF : forall i, x i * q = PI / 2 * (INR (S i) * (5 / 100))) by (intros i; unfold x; rewrite Rmult_assoc, U; ring).
  assert (XS : forall i, x (S i) = x i + u) by (intros i; unfold x; rewrite (S_INR (S i)); ring).
  assert (XP : forall i, 0 < x i) by (intros i; unfold x; apply Rmult_lt_0_compat; [apply lt_0_INR; lia|exact U0]).
  assert (GD : forall i, 0 < den (x i) (rho * x i) /\ gain h p false i * gain h p false i * den (x i) (rho * x i) = 1).
  { intros i. set (w := 2 * PI * (INR (S i) * (5 / 100))). assert (W : 0 < w) by (unfold w; assert (0 < INR (S i)) by (apply lt_0_INR; lia); nra).
    destruct (single_gain w l lst P P2 X0 H0 W) as [D1 D2]. destruct (k_star_lin w l) as [K1 K2]. rewrite K1, K2, Ea, Ei in D1, D2. fold hh in D1, D2.
    assert (E1 : w * al * hh = x i) by (unfold x, u, w; ring). assert (E2 : - (w * - (rho * al)) * hh = rho * x i) by (unfold x, u, w; ring). rewrite E1, E2 in D1, D2.
    split; [exact D1|]. unfold gain. fold t. rewrite El. exact D2. }
  assert (GP : forall i, 0 <= gain h p false i) by (intros i; unfold gain; apply Cmod_ge_0).
  assert (UPl : forall i, den (x (S i)) (rho * x (S i)) < den (x i) (rho * x i) -> gain h p false i < gain h p false (S i)).
  { intros i D. destruct (GD i) as [D1 D2]. destruct (GD (S i)) as [D3 D4]. pose proof (GP i). pose proof (GP (S i)).
    set (g := gain h p false i) in *. set (g' := gain h p false (S i)) in *. set (e := den (x i) (rho * x i)) in *. set (e' := den (x (S i)) (rho * x (S i))) in *. clearbody g g' e e'.
    destruct (Rlt_or_le g g') as [|C]; [assumption|exfalso]. assert (g' * g' <= g * g) by (apply Rmult_le_compat; assumption). assert (e' * (g' * g') <= e' * (g * g)) by (apply Rmult_le_compat_l; lra). assert (0 < g * g) by nra. nra. }
  assert (DNl : forall i, den (x i) (rho * x i) <= den (x (S i)) (rho * x (S i)) -> gain h p false (S i) <= gain h p false i).
  { intros i D. destruct (GD i) as [D1 D2]. destruct (GD (S i)) as [D3 D4]. pose proof (GP i). pose proof (GP (S i)).
    set (g := gain h p false i) in *. set (g' := gain h p false (S i)) in *. set (e := den (x i) (rho * x i)) in *. set (e' := den (x (S i)) (rho * x (S i))) in *. clearbody g g' e e'.
    destruct (Rle_or_lt g' g) as [|C]; [assumption|exfalso]. assert (g * g < g' * g') by (apply Rmult_le_0_lt_compat; assumption). assert (e * (g * g) < e * (g' * g')) by (apply Rmult_lt_compat_l; lra). assert (0 <= g' * g') by nra. assert (e * (g' * g') <= e' * (g' * g')) by (apply Rmult_le_compat_r; assumption). lra. }
  (* first grid point past the quarter wavelength *)
  assert (J0 : exists j0, PI / 2 <= x j0 /\ x j0 < PI / 2 + u).
  { destruct (archimed (PI / 2 / u)) as [R1 R2]. set (z := Rdefinitions.up (PI / 2 / u)) in *. assert (Qd : PI / 2 / u * u = PI / 2) by (field; lra).
    assert (Z2 : (1 < z)%Z) by (apply lt_IZR; nra).
    destruct (Req_dec (IZR z - PI / 2 / u) 1) as [EQ|NE].
    - exists (Z.to_nat (z - 2)). unfold x. rewrite <- (Nat2Z.id (S (Z.to_nat (z - 2)))), INR_IZR_INZ, Nat2Z.id, Nat2Z.inj_succ, Z2Nat.id by lia. unfold Z.succ. rewrite plus_IZR, minus_IZR. nra.
    - exists (Z.to_nat (z - 1)). unfold x. rewrite <- (Nat2Z.id (S (Z.to_nat (z - 1)))), INR_IZR_INZ, Nat2Z.id, Nat2Z.inj_succ, Z2Nat.id by lia. unfold Z.succ. rewrite plus_IZR, minus_IZR. nra. }
  destruct J0 as (j0 & J1 & J2).
  assert (FJ : INR (S j0) * (5 / 100) < q + 5 / 100). { pose proof (XF j0) as E. assert (x j0 * q < (PI / 2 + u) * q) by (apply Rmult_lt_compat_r; lra). nra. }
  assert (L0 : (j0 < 598)%nat). { apply INR_lt. rewrite S_INR in FJ. rewrite (INR_IZR_INZ 598). cbn [Z.of_nat Pos.of_succ_nat Pos.succ]. lra. }
  assert (DJ : gain h p false (S j0) <= gain h p false j0).
  { apply DNl. rewrite XS. apply den_falls; lra. }
  (* first drop *)
  assert (FD : exists j, (j <= j0)%nat /\ gain h p false (S j) <= gain h p false j /\ forall i, (i < j)%nat -> gain h p false i < gain h p false (S i)).
  { clear - DJ. set (g := gain h p false) in *. clearbody g. induction j0 as [j0 IH] using lt_wf_ind.
    assert (DC : (forall i, (i < j0)%nat -> g i < g (S i)) \/ exists i, (i < j0)%nat /\ g (S i) <= g i).
    { clear. induction j0 as [|j IH]; [left; intros; lia|]. destruct IH as [IH|(i & Hi & H)]; [|right; exists i; split; [lia|exact H]].
      destruct (Rlt_or_le (g j) (g (S j))) as [L|L]; [left|right; exists j; split; [lia|exact L]]. intros i Hi. destruct (Nat.eq_dec i j) as [-> |]; [exact L|apply IH; lia]. }
    destruct DC as [A|(i & Hi & H)]; [exists j0; auto|]. destruct (IH i Hi H) as (j & Hj & R). exists j. split; [lia|exact R]. }
  destruct FD as (j & Lj & D & R). destruct (C94_f0 h p false Wf V) as (F & _). exists (INR (S j) * (5 / 100)). split; [apply (F j); auto; lia|]. split.
  - destruct (Rlt_or_le (fq * (1 - 10 * c) - 25 / 1000) (INR (S j) * (5 / 100))) as [|C]; [assumption|exfalso].
    assert (K : gain h p false j < gain h p false (S j)); [|lra]. apply UPl. rewrite XS. apply den_rises with xi; try lra; [split; [left; apply XP|lra]|].
    replace (x j + (x j + u)) with (2 * x j + u) by ring. apply Rmult_le_reg_r with q; [exact Q0|]. rewrite Rmult_plus_distr_r, Rmult_assoc, (XF j), U. fold c.
    assert (1 - 10 * c <= 1) by lra. assert (CB : 0 <= 1 - 10 * c) by (unfold c; nra).
    assert (fq * (1 - 10 * c) <= q * (1 - 10 * c)) by (apply Rmult_le_compat_r; lra). nra.
  - assert (INR (S j) <= INR (S j0)) by (apply le_INR; lia). lra.
Qed.

(** Depth to a velocity: the top of the first row that reaches it, or the bottom; z1 is the
    depth to 1000 m/s. *)
Theorem C94_basin_depth : forall h p b, let rows := t_rows (tbl h (o_tbl p)) in rows <> [] ->
  get_z1 h p = get_basin_depth h p 1000 /\
  exists z, get_basin_depth h p b = Ok z /\
  ((exists k, (k < length rows)%nat /\ b <= cell 1 (nth k rows []) /\ (forall j, (j < k)%nat -> cell 1 (nth j rows []) < b) /\ z = rsum (map (cell 0) (firstn k rows))) \/
   ((forall r, In r rows -> cell 1 r < b) /\ z = rsum (map (cell 0) rows))).
Proof.
  intros h p b rows HN. split; [reflexivity|]. assert (NL : layers (tbl h (o_tbl p)) <> []) by (unfold layers; fold rows; destruct rows; [congruence|discriminate]).
  destruct (C05_basin_depth (layers (tbl h (o_tbl p))) b NL) as (z & E & H). exists z. split; [exact E|]. unfold layers, vs_of, thk_of in H. fold rows in H. rewrite !map_map in H. cbn [fst snd] in H.
  assert (NE : forall j w, (exists r, nth_error rows j = Some r /\ cell 1 r = w) -> nth_error (map (fun x => cell 1 x) rows) j = Some w).
  { intros j w (r & Hr & <-). rewrite nth_error_map, Hr. reflexivity. }
  destruct H as [(k & v & Hk & Hb & -> & Hj)|[Ha ->]].
  - left. exists k. rewrite nth_error_map in Hk. destruct (nth_error rows k) as [r|] eqn:Er; [|discriminate]. injection Hk as <-.
    assert (Lk : (k < length rows)%nat) by (apply nth_error_Some; congruence). rewrite (nth_error_nth rows k [] Er). split; [exact Lk|]. split; [exact Hb|]. split.
    + intros j Lj. apply (Hj j _ Lj). apply NE. exists (nth j rows []). split; [apply nth_error_nth'; lia|reflexivity].
    + rewrite firstn_map. reflexivity.
  - right. split; [|reflexivity]. intros r Hr. apply In_nth_error in Hr as (j & Hj). apply (Ha j). apply NE. eauto.
Qed.

(** 50 m at 200 m/s and 2 % damping on rock: about 1 Hz; the same layer on itself: 0.05 Hz from
    the outcrop curve. *)
Example C94_instance :
  let t := mktable false 5 [[50; 200; 2/100; 1800; 1]; [0; 800; 1/100; 2000; 0]] in
  let t' := mktable false 5 [[50; 200; 2/100; 1800; 1]; [0; 200; 2/100; 1800; 0]] in
  let h := [t; t'] in let p := mkobj 0 0 200 50 1 in let p' := mkobj 1 1 200 50 1 in
  table_wf t /\ valid_table t /\ valid_table t' /\ one_material t' /\
  (exists f, get_f0_BH h p = Ok f /\ 97 / 100 < f < 106 / 100) /\ get_f0_BH h p' = get_f0_BH h p /\ get_f0_RO h p' = Ok (5 / 100) /\
  (exists z, get_basin_depth h p 700 = Ok z /\ z = 50) /\ get_transfer_function h p 1 1 = Err UnboundLocalError.
Proof.
  intros t t' h p p'. assert (Wf : table_wf t) by (repeat constructor). assert (Wf' : table_wf t') by (repeat constructor).
  assert (V : valid_table t).
  { exists true. split; [reflexivity|]. eexists [_], _. split; [reflexivity|]. split; [constructor; [|constructor]|].
    - exists 50, 200, [2/100; 1800; 1]. split; [reflexivity|]. split; [lra|]. split; [lra|]. exists (2/100), 1800, 1%Z. repeat split; lra || lia.
    - exists 0, 800, [1/100; 2000; 0]. split; [reflexivity|]. split; [lra|]. split; [lra|]. exists (1/100), 2000, 0%Z. repeat split; lra || lia. }
  assert (V' : valid_table t').
  { exists true. split; [reflexivity|]. eexists [_], _. split; [reflexivity|]. split; [constructor; [|constructor]|].
    - exists 50, 200, [2/100; 1800; 1]. split; [reflexivity|]. split; [lra|]. split; [lra|]. exists (2/100), 1800, 1%Z. repeat split; lra || lia.
    - exists 0, 200, [2/100; 1800; 0]. split; [reflexivity|]. split; [lra|]. split; [lra|]. exists (2/100), 1800, 0%Z. repeat split; lra || lia. }
  assert (U : one_material t') by (exists 200, (2/100), 1800; intros r [<-|[<-|[]]]; cbn; auto).
  split; [exact Wf|]. split; [exact V|]. split; [exact V'|]. split; [exact U|]. split; [|split; [|split; [|split]]].
  - destruct (C94_quarter_wavelength h p (mklay 50 200 (2/100) 1800) (mklay 0 800 (1/100) 2000) Wf V eq_refl) as (f & E & L); cbn [l_vs l_h l_xi] in *; try lra.
    exists f. split; [exact E|]. lra.
  - apply (C94_borehole_ignores_rock h p' p [50; 200; 2/100; 1800; 1] [0; 200; 2/100; 1800; 0] [0; 800; 1/100; 2000; 0]); auto.
  - apply (C94_uniform_profile h p'); auto.
  - destruct (C94_basin_depth h p 700 ltac:(discriminate)) as (_ & z & E & [(k & Lk & Hb & _ & Hz)|[Ha _]]).
    + exists z. split; [exact E|]. cbn in Lk. destruct k as [|[|k]]; [cbn in Hb; lra|cbn in Hz; lra|lia].
    + specialize (Ha [0; 800; 1/100; 2000; 0] (or_intror (or_introl eq_refl))). cbn in Ha. lra.
  - destruct (C94_errors h p 1 1 ltac:(lra)) as (_ & _ & H). apply H; [exact V|lra].
Qed.
