(** C84: attributes of a frequency spectrum.  C85: its unwrapped phase, peak and smoothing. *)
From Coq Require Import Reals List Bool ZArith Lia Lra.
From Coquelicot Require Import Complex.
From Coq Require Import List.
From Verif Require Import Base M_generic P_generic M_profile M_vs_profile P_vs_profile M_motion P_motion M_soil M_interp P_interp M_dft P_dft M_signal M_linear P_linear Prop_linear M_simlin P_simlin P_eqlin M_amplify P_unwrap Prop_unwrap P_amplify Prop_amplify Prop_siteresp M_freqspec Prop_motion_ops.
Import ListNotations.
Open Scope R_scope.

(** ** Angles *)
Lemma carg_range z : - PI < carg z <= PI.
Proof.
  pose proof PI_RGT_0. unfold carg. destruct (Reqb_spec (Cmod z) 0) as [E|E]; [lra|].
  assert (Hp : 0 < Cmod z) by (pose proof (Cmod_ge_0 z); lra).
  destruct (acos_bound (Re z / Cmod z)) as [B1 B2]. destruct (Rltb_spec (Im z) 0) as [Hi|Hi]; [|lra].
  assert (Hne : acos (Re z / Cmod z) <> PI); [|lra]. intros EP.
  assert (Hb : -1 <= Re z / Cmod z <= 1).
  { assert (HR : Rabs (Re z) <= Cmod z) by (eapply Rle_trans; [apply Rmax_l|apply (Rmax_Cmod z)]). assert (HR1 := Rle_abs (Re z)); assert (HR2 := Rle_abs (- Re z)); rewrite Rabs_Ropp in HR2.
    split; [apply Rmult_le_reg_r with (Cmod z)|apply Rmult_le_reg_r with (Cmod z)]; try lra; unfold Rdiv; rewrite Rmult_assoc, Rinv_l by lra; lra. }
  assert (EC : cos (acos (Re z / Cmod z)) = -1) by (rewrite EP; apply cos_PI).
  rewrite cos_acos in EC by exact Hb.
  assert (ER : Re z = - Cmod z).
  { apply (f_equal (fun x => x * Cmod z)) in EC. unfold Rdiv in EC. rewrite Rmult_assoc, Rinv_l in EC by lra. lra. }
  assert (EM : Cmod z * Cmod z = Re z * Re z + Im z * Im z).
  { unfold Cmod. rewrite sqrt_sqrt; [unfold Re, Im; ring|]. apply Rplus_le_le_0_compat; apply pow2_ge_0. }
  rewrite ER in EM. nra.
Qed.

Lemma angle_unique a b : cis a = cis b -> - PI < a <= PI -> - PI < b <= PI -> a = b.
Proof.
  intros E Ha Hb. pose proof PI_RGT_0.
  assert (E1 : cis (a - b) = RtoC 1).
  { unfold Rminus. rewrite cis_plus, E, <- cis_plus. replace (b + - b) with 0 by ring. apply cis_0. }
  assert (E2 : cis (b - a) = RtoC 1).
  { unfold Rminus. rewrite cis_plus, <- E, <- cis_plus. replace (a + - a) with 0 by ring. apply cis_0. }
  destruct (Rtotal_order a b) as [L|[L|L]]; [exfalso|exact L|exfalso].
  - apply (cis_not_1 (b - a)); [lra|exact E2].
  - apply (cis_not_1 (a - b)); [lra|exact E1].
Qed.

Lemma same_angle_of_cis a b : cis a = cis b -> same_angle a b.
Proof.
  intros E. destruct (mod2pi_spec (a - b)) as [H [z Ez]]. exists (- z)%Z. rewrite opp_IZR.
  assert (E1 : cis (mod2pi (a - b)) = RtoC 1).
  { rewrite (cis_same (mod2pi (a - b)) (a - b)) by (exists z; exact Ez). unfold Rminus. rewrite cis_plus, E, <- cis_plus. replace (b + - b) with 0 by ring. apply cis_0. }
  destruct (Rle_lt_or_eq_dec 0 _ (proj1 H)) as [L|L]; [exfalso; apply (cis_not_1 (mod2pi (a - b))); [lra|exact E1]|]. lra.
Qed.

(** The modulus and the angle of [a exp(i p)]. *)
Lemma polar_mod a p : 0 <= a -> Cmod (polar_c a p) = a.
Proof. intros H. unfold polar_c. rewrite Cmod_mult, Cmod_R, cis_mod, Rabs_pos_eq by exact H. ring. Qed.
Lemma polar_arg_same z p : same_angle p (carg z) -> polar_c (Cmod z) p = z.
Proof. intros H. unfold polar_c. rewrite (cis_same _ _ H). apply carg_spec. Qed.

(** ** C84 *)
(** What is kept of the argument: the axis made for a single column, or the first column as
    it is, and the frequency step. *)
Definition column (l : list C) (d : R) : list (R * C) := combine (map (fun i => INR (S i) * d) (seq 0 (length l))) l.
Definition kept (data : cdata) (df : option R) (rows : list (R * C)) (d : R) : Prop :=
  match data with
  | CD1 l | CDcol l => df = Some d /\ d <> 0 /\ (2 <= length l)%nat /\ rows = column l d
  | CD2 r => (2 <= length r)%nat /\ rows = r /\ d = nth 1 (map fst r) 0 - nth 0 (map fst r) 0
  | CDother => False
  end.

Lemma one_ccolumn_spec l d : d <> 0 -> (2 <= length l)%nat -> one_ccolumn l (Some d) = Ok (column l d, d).
Proof.
  intros Hd Hl. unfold one_ccolumn. rewrite <- (map_length Re l). rewrite one_column_spec by (rewrite ?map_length; auto). cbn [bind fst snd].
  rewrite map_length. f_equal. f_equal. unfold column. f_equal. apply nth_ext with 0 0.
  - rewrite !map_length, combine_length, !map_length, seq_length. lia.
  - intros k Hk. rewrite map_length, combine_length, !map_length, seq_length in Hk.
    rewrite (nth_indep _ 0 (fst (0, 0))) by (rewrite map_length, combine_length, !map_length, seq_length; lia).
    rewrite map_nth, combine_nth by (rewrite !map_length, seq_length; reflexivity). reflexivity.
Qed.

Lemma cread_ok data df p : cread data df = Ok p <-> kept data df (fst p) (snd p).
Proof.
  assert (H1 : forall l, one_ccolumn l df = Ok p <-> df = Some (snd p) /\ snd p <> 0 /\ (2 <= length l)%nat /\ fst p = column l (snd p)).
  { intros l. split.
    - intros H. destruct df as [d|]; [|discriminate].
      destruct (Nat.lt_ge_cases (length l) 2) as [Hl|Hl]; [unfold one_ccolumn in H; rewrite one_column_short in H by lia; discriminate|].
      destruct (Req_dec d 0) as [->|Hd].
      { exfalso. unfold one_ccolumn, one_column in H. rewrite (get_ok _ 1 0), (get_ok _ 0 0) in H by (rewrite linspace_length; lia). cbn [bind] in H. destruct (Reqb_spec 0 0); [discriminate|lra]. }
      rewrite one_ccolumn_spec in H by auto. injection H as <-. auto.
    - intros (-> & Hd & Hl & E). rewrite one_ccolumn_spec by auto. rewrite <- E. destruct p; reflexivity. }
  destruct data as [l|r|l|]; cbn [cread kept].
  - apply H1.
  - destruct (Nat.eqb_spec (length r) 1) as [E1|E1].
    + split; [|intros (H & _); lia]. intros H. apply H1 in H as (_ & _ & H & _). rewrite map_length in H. lia.
    + split.
      * intros H. apply bind_ok in H as (c1 & E2 & H). apply bind_ok in H as (c0 & E0 & H). injection H as <-. cbn [fst snd].
        assert (Hl : (2 <= length r)%nat).
        { destruct (Nat.lt_ge_cases (length r) 2) as [Hl|Hl]; [|exact Hl]. rewrite get_err in E2 by (rewrite map_length; lia). discriminate. }
        rewrite (get_ok _ 1 0) in E2 by (rewrite map_length; lia). rewrite (get_ok _ 0 0) in E0 by (rewrite map_length; lia).
        injection E2 as <-. injection E0 as <-. auto.
      * intros (Hl & E & Ed). rewrite (get_ok _ 1 0), (get_ok _ 0 0) by (rewrite map_length; lia). cbn [bind]. destruct p as [a b]. cbn [fst snd] in *. subst. reflexivity.
  - destruct l as [|z l]; [|apply H1]. split; [discriminate|]. intros (_ & _ & H & _). cbn in H. lia.
  - split; [discriminate|tauto].
Qed.

Lemma kept_length data df rows d : kept data df rows d -> (2 <= length rows)%nat.
Proof.
  destruct data as [l|r|l|]; cbn [kept]; [intros (_ & _ & H & ->)|intros (H & -> & _); exact H|intros (_ & _ & H & ->)|tauto];
    unfold column; rewrite combine_length, map_length, seq_length; lia.
Qed.

(** Smallest and largest element. *)
Definition least (l : list R) (m : R) : Prop := In m l /\ forall x, In x l -> m <= x.
Definition greatest (l : list R) (m : R) : Prop := In m l /\ forall x, In x l -> x <= m.
Lemma rmin1_least l m : rmin1 l = Ok m <-> least l m.
Proof.
  destruct l as [|x l]; [split; [discriminate|intros [[] _]]|]. cbn [rmin1]. destruct (fold_Rmin_spec l x) as (H1 & H2 & H3).
  assert (HL : least (x :: l) (fold_left Rmin l x)).
  { split; [destruct H3 as [->|H3]; [left; reflexivity|right; exact H3]|intros y [<-|Hy]; auto]. }
  split; [intros E; injection E as <-; exact HL|]. intros [A B]. f_equal. apply Rle_antisym; [apply HL, A|apply B, HL].
Qed.
Lemma rmax1_greatest l m : rmax1 l = Ok m <-> greatest l m.
Proof.
  destruct l as [|x l]; [split; [discriminate|intros [[] _]]|]. cbn [rmax1]. destruct (fold_Rmax_spec l x) as (H1 & H2 & H3).
  assert (HL : greatest (x :: l) (fold_left Rmax l x)).
  { split; [destruct H3 as [->|H3]; [left; reflexivity|right; exact H3]|intros y [<-|Hy]; auto]. }
  split; [intros E; injection E as <-; exact HL|]. intros [A B]. f_equal. apply Rle_antisym; [apply B, HL|apply HL, A].
Qed.
Lemma extremes_exist l : l <> [] -> exists a b, rmin1 l = Ok a /\ rmax1 l = Ok b.
Proof. destruct l; [congruence|]. intros _. cbn. eauto. Qed.

(** Construction without interpolation: what is accepted and what is stored. *)
Theorem C84_attributes : forall data df s,
  fs_init data df None = Ok s <->
  exists rows d, kept data df rows d /\ fs_df s = d /\ fs_raw s = rows /\ fs_npts s = length rows /\
    fs_freq s = map fst rows /\ fs_spec s = map snd rows /\ least (fs_freq s) (fs_fmin s) /\ greatest (fs_freq s) (fs_fmax s).
Proof.
  intros data df s. unfold fs_init. split.
  - intros H. apply bind_ok in H as (p & Hp & H). cbn [bind] in H. apply bind_ok in H as (lo & Hlo & H). apply bind_ok in H as (hi & Hhi & H).
    injection H as <-. apply cread_ok in Hp. exists (fst p), (snd p). cbn. repeat split; auto.
    1,2: apply rmin1_least in Hlo; apply Hlo. 1,2: apply rmax1_greatest in Hhi; apply Hhi.
  - intros (rows & d & Hk & E1 & E2 & E3 & E4 & E5 & L & G). rewrite (proj2 (cread_ok data df (rows, d))) by exact Hk. cbn [bind fst snd].
    apply rmin1_least in L. apply rmax1_greatest in G. rewrite E4 in L, G. rewrite L. cbn [bind]. rewrite G. cbn [bind]. f_equal. destruct s; cbn in *. congruence.
Qed.

(** Which error is raised otherwise. *)
Definition why_not (l : list C) (df : option R) (e : exn) : Prop :=
  (df = None /\ e = ValueError) \/ (df <> None /\ (length l < 2)%nat /\ e = IndexError) \/ (df = Some 0 /\ (2 <= length l)%nat /\ e = AssertionError).
Theorem C84_errors : forall data df e,
  fs_init data df None = Err e <->
  match data with
  | CD1 l => why_not l df e
  | CDcol l => (l = [] /\ e = TypeError) \/ (l <> [] /\ why_not l df e)
  | CD2 [] => e = IndexError
  | CD2 [r] => why_not [RtoC (fst r)] df e
  | CD2 _ => False
  | CDother => e = TypeError
  end.
Proof.
  intros data df e.
  assert (H0 : fs_init data df None = Err e <-> cread data df = Err e).
  { unfold fs_init. destruct (cread data df) as [p|e'] eqn:E; [|split; intros H; injection H as <-; reflexivity].
    split; [|discriminate]. intros H. exfalso. cbn [bind] in H. apply cread_ok in E. apply kept_length in E.
    destruct (extremes_exist (map fst (fst p))) as (a & b & Ea & Eb). { intros Z. apply (f_equal (@length R)) in Z. rewrite map_length in Z. cbn in Z. lia. }
    rewrite Ea in H. cbn [bind] in H. rewrite Eb in H. discriminate. }
  rewrite H0. clear H0.
  assert (H1 : forall l, one_ccolumn l df = Err e <-> why_not l df e).
  { intros l. unfold why_not. destruct df as [d|].
    2:{ cbn. split; [intros H; injection H as <-; auto|]. intros [[_ ->]|[[H _]|[H _]]]; [reflexivity|congruence|discriminate]. }
    destruct (Nat.lt_ge_cases (length l) 2) as [Hl|Hl].
    { unfold one_ccolumn. rewrite one_column_short by lia. cbn [bind]. split; [intros H; injection H as <-; right; left; repeat split; auto; discriminate|].
      intros [[H _]|[(_ & _ & ->)|(_ & H & _)]]; [discriminate|reflexivity|lia]. }
    destruct (Req_dec d 0) as [->|Hd].
    { unfold one_ccolumn, one_column. rewrite (get_ok _ 1 0), (get_ok _ 0 0) by (rewrite linspace_length; lia). cbn [bind]. destruct (Reqb_spec 0 0); [|lra]. cbn [bind].
      split; [intros H; injection H as <-; right; right; auto|]. intros [[H _]|[(_ & H & _)|(_ & _ & ->)]]; [discriminate|lia|reflexivity]. }
    rewrite one_ccolumn_spec by auto. split; [discriminate|]. intros [[H _]|[(_ & H & _)|(H & _)]]; [discriminate|lia|congruence]. }
  destruct data as [l|r|l|]; cbn [cread].
  - apply H1.
  - destruct r as [|r0 [|r1 r]]; cbn [length Nat.eqb map].
    + cbn. split; [intros H; injection H as <-; reflexivity|intros ->; reflexivity].
    + apply (H1 [RtoC (fst r0)]).
    + cbn. split; [discriminate|tauto].
  - destruct l as [|z l].
    + split; [intros H; injection H as <-; auto|]. intros [[_ ->]|[H _]]; [reflexivity|congruence].
    + rewrite (H1 (z :: l)). split; [intros H; right; split; [discriminate|exact H]|]. intros [[H _]|[_ H]]; [discriminate|exact H].
  - split; [intros H; injection H as <-; reflexivity|intros ->; reflexivity].
Qed.

(** Amplitude and phase are the polar form of the spectrum, the phase being in (-pi, pi]. *)
Lemma nth_map_C (f : C -> R) l k : (k < length l)%nat -> nth k (map f l) 0 = f (nth k l (RtoC 0)).
Proof. intros H. rewrite (nth_indep _ 0 (f (RtoC 0))) by (rewrite map_length; exact H). apply map_nth. Qed.

Lemma carg_real x : carg (RtoC x) = if Rltb x 0 then PI else 0.
Proof.
  unfold carg. rewrite Cmod_R. cbn [RtoC Re Im fst snd]. destruct (Rltb_spec 0 0); [lra|]. destruct (Reqb_spec (Rabs x) 0) as [E|E].
  - destruct (Rltb_spec x 0) as [L|L]; [rewrite Rabs_left in E; lra|reflexivity].
  - destruct (Rltb_spec x 0) as [L|L].
    + rewrite Rabs_left by lra. replace (x / - x) with (- (1)) by (field; lra). rewrite acos_opp, acos_1. ring.
    + assert (x <> 0) by (intros ->; rewrite Rabs_R0 in E; lra). rewrite Rabs_pos_eq by lra. replace (x / x) with 1 by (field; lra). rewrite acos_1. ring.
Qed.

Theorem C84_polar_form : forall s,
  length (amplitude s) = length (fs_spec s) /\ length (phase s) = length (fs_spec s) /\
  (forall k, (k < length (fs_spec s))%nat ->
     let z := nth k (fs_spec s) (RtoC 0) in let a := nth k (amplitude s) 0 in let p := nth k (phase s) 0 in
     0 <= a /\ - PI < p <= PI /\ Re z = a * cos p /\ Im z = a * sin p /\
     (Im z = 0 -> p = if Rltb (Re z) 0 then PI else 0)) /\
  (iscomplex s = true <-> exists z, In z (fs_spec s) /\ Im z <> 0).
Proof.
  intros s. unfold amplitude, phase. rewrite !map_length. split; [reflexivity|]. split; [reflexivity|]. split.
  - intros k Hk. rewrite !nth_map_C by exact Hk. set (z := nth k (fs_spec s) (RtoC 0)). split; [apply Cmod_ge_0|]. split; [apply carg_range|].
    pose proof (carg_spec z) as E. split; [|split].
    + rewrite <- E at 1. unfold cis, Cmult, RtoC, Re. cbn. ring.
    + rewrite <- E at 1. unfold cis, Cmult, RtoC, Im. cbn. ring.
    + intros Hi. assert (Ez : z = RtoC (Re z)) by (destruct z as [x y]; cbn in *; subst y; reflexivity).
      rewrite Ez at 1. apply carg_real.
  - unfold iscomplex. rewrite existsb_exists. split; intros (z & A & B); exists z; (split; [exact A|]); destruct (Reqb_spec (Im z) 0); cbn in *; congruence.
Qed.

(** The documentation promises a zero phase for a real spectrum. *)
Theorem C84_phase_of_real_refuted : exists data df s, fs_init data df None = Ok s /\ iscomplex s = false /\ nth 0 (phase s) 0 = PI.
Proof.
  exists (CD1 [RtoC (-1); RtoC 2]), (Some 1). eexists.
  split; [apply C84_attributes; exists (column [RtoC (-1); RtoC 2] 1), 1|].
  - split; [cbn; repeat split; auto; lra|]. instantiate (1 := mkfs 1 _ _ _ 1 2 _). do 5 (split; [reflexivity|]). cbn. split; (split; [cbn; lra|intros x [<-|[<-|[]]]; lra]).
  - split; cbn.
    + unfold iscomplex. cbn. destruct (Reqb_spec 0 0); [reflexivity|lra].
    + rewrite (carg_real (-1)). destruct (Rltb_spec (-1) 0); [reflexivity|lra].
Qed.

(** *** With interpolation *)
Inductive cpl_value (pts : list (R * C)) (x : R) : C -> Prop :=
| CPL_left z0 x0 rest : pts = (x0, z0) :: rest -> x <= x0 -> cpl_value pts x z0
| CPL_right k : S k = length pts -> fst (nth k pts (0, RtoC 0)) <= x -> cpl_value pts x (snd (nth k pts (0, RtoC 0)))
| CPL_mid k t : (S k < length pts)%nat -> 0 <= t <= 1 ->
    x = (1 - t) * fst (nth k pts (0, RtoC 0)) + t * fst (nth (S k) pts (0, RtoC 0)) ->
    cpl_value pts x (Cplus (Cmult (RtoC (1 - t)) (snd (nth k pts (0, RtoC 0)))) (Cmult (RtoC t) (snd (nth (S k) pts (0, RtoC 0))))).
Definition cincr (pts : list (R * C)) : Prop :=
  forall k, (S k < length pts)%nat -> fst (nth k pts (0, RtoC 0)) < fst (nth (S k) pts (0, RtoC 0)).

Definition part (f : C -> R) (pts : list (R * C)) : list (R * R) := map (fun p => (fst p, f (snd p))) pts.

Lemma cinterp_from_spec x rest : forall x0 z0, x0 <= x -> cincr ((x0, z0) :: rest) ->
  cpl_value ((x0, z0) :: rest) x (interp_from x x0 (Re z0) (part Re rest), interp_from x x0 (Im z0) (part Im rest)).
Proof.
  induction rest as [|[x1 z1] rest IH]; intros x0 z0 Hx Hi; cbn [part map interp_from fst snd].
  - replace (Re z0, Im z0) with (snd (nth 0 [(x0, z0)] (0, RtoC 0))) by (cbn; destruct z0; reflexivity). apply CPL_right; [reflexivity|exact Hx].
  - pose proof (Hi 0%nat ltac:(cbn; lia)) as A. cbn in A. destruct (Rltb_spec x x1) as [H|H].
    + destruct (Reqb_spec x x0) as [E|E].
      * replace (Re z0, Im z0) with z0 by (destruct z0; reflexivity). eapply CPL_left; [reflexivity|lra].
      * set (t := (x - x0) / (x1 - x0)).
        assert (Ht : 0 <= t <= 1) by (unfold t; split; [apply Rmult_le_pos; [lra|left; apply Rinv_0_lt_compat; lra]|apply Rmult_le_reg_r with (x1 - x0); [lra|]; unfold Rdiv; rewrite Rmult_assoc, Rinv_l by lra; lra]).
        replace ((Re z1 - Re z0) / (x1 - x0) * (x - x0) + Re z0, (Im z1 - Im z0) / (x1 - x0) * (x - x0) + Im z0)
          with (Cplus (Cmult (RtoC (1 - t)) (snd (nth 0 ((x0, z0) :: (x1, z1) :: rest) (0, RtoC 0)))) (Cmult (RtoC t) (snd (nth 1 ((x0, z0) :: (x1, z1) :: rest) (0, RtoC 0))))).
        2:{ destruct z0 as [a b], z1 as [c d]. unfold Cplus, Cmult, RtoC, Re, Im, t. cbn. f_equal; field; lra. }
        apply CPL_mid; [cbn; lia|exact Ht|]. cbn. unfold t. field. lra.
    + assert (Hi' : cincr ((x1, z1) :: rest)) by (intros k Hk; apply (Hi (S k)); cbn in *; lia).
      specialize (IH x1 z1 ltac:(lra) Hi'). fold (part Re rest). fold (part Im rest).
      inversion IH as [z' x' r' E L E'|k Hk L E'|k t Hk Ht Ex E'].
      * injection E as <- <- <-. assert (x = x1) by lra. subst x.
        assert (Q := CPL_mid ((x0, z0) :: (x1, z1) :: rest) x1 0 1 ltac:(cbn; lia) ltac:(lra) ltac:(cbn; ring)). cbn [nth snd] in Q.
        replace (Cplus (Cmult (RtoC (1 - 1)) z0) (Cmult (RtoC 1) z1)) with z1 in Q by (destruct z0 as [a b], z1 as [c d]; unfold Cplus, Cmult, RtoC; cbn; f_equal; ring). exact Q.
      * apply (CPL_right ((x0, z0) :: (x1, z1) :: rest) x (S k)); [cbn in *; lia|exact L].
      * apply (CPL_mid ((x0, z0) :: (x1, z1) :: rest) x (S k) t); [cbn in *; lia|exact Ht|exact Ex].
Qed.

Lemma cinterp1_spec pts x : cincr pts -> pts <> [] ->
  exists a b, interp1 (part Re pts) x = Ok a /\ interp1 (part Im pts) x = Ok b /\ cpl_value pts x (a, b).
Proof.
  destruct pts as [|[x0 z0] rest]; [congruence|]. intros Hi _. unfold part. cbn [map fst snd interp1]. destruct (Rltb_spec x x0) as [H|H].
  - eexists. eexists. split; [reflexivity|]. split; [reflexivity|]. replace (Re z0, Im z0) with z0 by (destruct z0; reflexivity). eapply CPL_left; [reflexivity|lra].
  - eexists. eexists. split; [reflexivity|]. split; [reflexivity|]. apply cinterp_from_spec; [lra|exact Hi].
Qed.

Definition grid_points (g : grid) : list R := if gr_log g then logspace (log10 (gr_min g)) (log10 (gr_max g)) (gr_n g) else linspace (gr_min g) (gr_max g) (gr_n g).
Lemma grid_length g : length (grid_points g) = gr_n g.
Proof. unfold grid_points, logspace. destruct (gr_log g); rewrite ?map_length, linspace_length; reflexivity. Qed.

Lemma cinterpolate_ok g pts : pts <> [] -> exists zs, cinterpolate g pts = Ok (combine (grid_points g) zs) /\ length zs = gr_n g /\
  forall k, (k < gr_n g)%nat -> interp1 (part Re pts) (nth k (grid_points g) 0) = Ok (Re (nth k zs (RtoC 0))) /\ interp1 (part Im pts) (nth k (grid_points g) 0) = Ok (Im (nth k zs (RtoC 0))).
Proof.
  intros Hne. unfold cinterpolate, interpolate. fold (grid_points g). change (map (fun p => (fst p, Re (snd p))) pts) with (part Re pts). change (map (fun p => (fst p, Im (snd p))) pts) with (part Im pts).
  assert (N1 : part Re pts <> []) by (destruct pts; [congruence|discriminate]). assert (N2 : part Im pts <> []) by (destruct pts; [congruence|discriminate]).
  destruct (np_interp_ok (part Re pts) (grid_points g) N1) as (re & E1 & L1 & V1). destruct (np_interp_ok (part Im pts) (grid_points g) N2) as (im & E2 & L2 & V2).
  rewrite grid_length in *. rewrite E1. cbn [bind]. rewrite E2. cbn [bind].
  assert (F : forall l : list R, length l = gr_n g -> map fst (combine (grid_points g) l) = grid_points g /\ map snd (combine (grid_points g) l) = l).
  { intros l HL. assert (HG : length (grid_points g) = length l) by (rewrite grid_length; auto). clear -HG. revert l HG. induction (grid_points g) as [|a l0 IH]; intros [|b l] HL; cbn in *; try discriminate; [auto|]. destruct (IH l ltac:(lia)) as [-> ->]. auto. }
  destruct (F re L1) as [F1 F2]. destruct (F im L2) as [_ F3]. rewrite F1, F2, F3. assert (L3 : length (combine re im) = gr_n g) by (rewrite combine_length; lia). exists (combine re im). split; [reflexivity|]. split; [exact L3|].
  intros k Hk. assert (N : @nth C k (combine re im) (RtoC 0) = (nth k re 0, nth k im 0)) by (unfold RtoC; apply combine_nth; lia). rewrite N. cbn [Re Im fst snd]. split; [apply V1|apply V2]; exact Hk.
Qed.

Lemma combine_fst {A B} (l : list A) (l' : list B) : length l = length l' -> map fst (combine l l') = l.
Proof. revert l'. induction l as [|a l IH]; intros [|b l'] H; cbn in *; try discriminate; [reflexivity|]. f_equal. apply IH. lia. Qed.
Lemma combine_snd {A B} (l : list A) (l' : list B) : length l = length l' -> map snd (combine l l') = l'.
Proof. revert l'. induction l as [|a l IH]; intros [|b l'] H; cbn in *; try discriminate; [reflexivity|]. f_equal. apply IH. lia. Qed.

(** Interpolation is accepted for the same data, provided a point is asked for; the frequencies
    are the grid asked for and each value is the piecewise-linear one of the raw data. *)
Theorem C84_interpolated : forall data df g,
  ((exists s, fs_init data df (Some g) = Ok s) <-> (exists rows d, kept data df rows d) /\ (0 < gr_n g)%nat) /\
  (forall s, fs_init data df (Some g) = Ok s -> exists rows d, kept data df rows d /\ fs_df s = d /\ fs_raw s = rows /\ fs_npts s = gr_n g /\
     length (fs_freq s) = gr_n g /\ length (fs_spec s) = gr_n g /\ least (fs_freq s) (fs_fmin s) /\ greatest (fs_freq s) (fs_fmax s) /\
     (forall k, (k < gr_n g)%nat -> (2 <= gr_n g)%nat ->
        let w := INR k / INR (gr_n g - 1) in
        (gr_log g = false -> nth k (fs_freq s) 0 = (1 - w) * gr_min g + w * gr_max g) /\
        (gr_log g = true -> 0 < gr_min g -> 0 < gr_max g -> ln (nth k (fs_freq s) 0) = (1 - w) * ln (gr_min g) + w * ln (gr_max g))) /\
     (cincr rows -> forall k, (k < gr_n g)%nat -> cpl_value rows (nth k (fs_freq s) 0) (nth k (fs_spec s) (RtoC 0)))).
Proof.
  intros data df g.
  assert (HB : forall rows d, kept data df rows d -> (0 < gr_n g)%nat -> exists zs lo hi, length zs = gr_n g /\
     fs_init data df (Some g) = Ok (mkfs d rows (gr_n g) (grid_points g) lo hi zs) /\ least (grid_points g) lo /\ greatest (grid_points g) hi /\
     forall k, (k < gr_n g)%nat -> interp1 (part Re rows) (nth k (grid_points g) 0) = Ok (Re (nth k zs (RtoC 0))) /\ interp1 (part Im rows) (nth k (grid_points g) 0) = Ok (Im (nth k zs (RtoC 0)))).
  { intros rows d Hk Hn. pose proof (kept_length _ _ _ _ Hk) as Hl. assert (Hne : rows <> []) by (destruct rows; cbn in Hl; [lia|discriminate]).
    destruct (cinterpolate_ok g rows Hne) as (zs & E & L & V).
    destruct (extremes_exist (grid_points g)) as (a & b & Ea & Eb). { intros Z. apply (f_equal (@length R)) in Z. rewrite grid_length in Z. cbn in Z. lia. }
    exists zs, a, b. split; [exact L|]. split; [|split; [apply rmin1_least, Ea|split; [apply rmax1_greatest, Eb|exact V]]].
    unfold fs_init. rewrite (proj2 (cread_ok data df (rows, d))) by exact Hk. cbn [bind fst snd]. rewrite E. cbn [bind].
    assert (HL : length (grid_points g) = length zs) by (rewrite grid_length; auto).
    rewrite (combine_fst _ _ HL), (combine_snd _ _ HL), Ea. cbn [bind]. rewrite Eb. reflexivity. }
  assert (HA : forall s, fs_init data df (Some g) = Ok s -> exists rows d, kept data df rows d /\ (0 < gr_n g)%nat).
  { intros s H. unfold fs_init in H. apply bind_ok in H as (p & Hp & H). apply cread_ok in Hp. exists (fst p), (snd p). split; [exact Hp|].
    destruct (gr_n g) as [|n] eqn:En; [exfalso|lia]. pose proof (kept_length _ _ _ _ Hp) as Hl. assert (Hne : fst p <> []) by (destruct (fst p); cbn in Hl; [lia|discriminate]).
    destruct (cinterpolate_ok g (fst p) Hne) as (zs & E & L & _). rewrite E in H. cbn [bind] in H. rewrite En in L. destruct zs; [|discriminate].
    rewrite combine_nil in H. cbn in H. discriminate. }
  split; [split|].
  - intros (s & H). destruct (HA s H) as (rows & d & Hk & Hn). eauto.
  - intros ((rows & d & Hk) & Hn). destruct (HB rows d Hk Hn) as (zs & lo & hi & _ & E & _). eauto.
  - intros s H. destruct (HA s H) as (rows & d & Hk & Hn). destruct (HB rows d Hk Hn) as (zs & lo & hi & Lz & E & L & G & V). rewrite E in H. injection H as <-.
    exists rows, d. cbn. rewrite grid_length. do 6 (split; [auto|]). split; [exact L|]. split; [exact G|]. split.
    + intros k Hkn Hn2. assert (HI : INR (gr_n g - 1) <> 0) by (apply not_0_INR; lia). unfold grid_points. split; intros ->.
      * rewrite linspace_nth' by lia. field. exact HI.
      * intros P1 P2. unfold logspace. rewrite (nth_indep _ 0 (Rpower 10 0)) by (rewrite map_length, linspace_length; lia). rewrite (map_nth (Rpower 10)), linspace_nth' by lia.
        unfold Rpower. rewrite ln_exp. unfold log10. assert (ln 10 <> 0) by (pose proof (ln_increasing 1 10 ltac:(lra) ltac:(lra)) as Q; rewrite ln_1 in Q; lra). field. auto.
    + intros Hi k Hkn. pose proof (kept_length _ _ _ _ Hk) as Hl. assert (Hne : rows <> []) by (destruct rows; cbn in Hl; [lia|discriminate]).
      destruct (cinterp1_spec rows (nth k (grid_points g) 0) Hi Hne) as (a & b & Ea & Eb & HV). destruct (V k Hkn) as [V1 V2]. rewrite V1 in Ea. rewrite V2 in Eb. injection Ea as <-. injection Eb as <-.
      destruct (nth k zs (RtoC 0)) as [u v]. exact HV.
Qed.

(** Interpolated amplitudes never exceed the raw ones; the raw values are met at the raw frequencies. *)
Theorem C84_interpolated_bounds : forall rows x z, cpl_value rows x z ->
  (forall M, (forall r, In r rows -> Cmod (snd r) <= M) -> Cmod z <= M) /\
  (cincr rows -> forall k, (k < length rows)%nat -> x = fst (nth k rows (0, RtoC 0)) -> z = snd (nth k rows (0, RtoC 0))).
Proof.
  intros rows x z H. split.
  - intros M HM. inversion H as [z' x' r' E L E'|k Hk L E'|k t Hk Ht Ex E'].
    + apply (HM (x', z)). rewrite E. left. reflexivity.
    + apply HM, nth_In. lia.
    + eapply Rle_trans; [apply Cmod_triangle|]. rewrite !Cmod_mult, !Cmod_R, !Rabs_pos_eq by lra.
      assert (A := HM _ (nth_In rows (0, RtoC 0) (n := k) ltac:(lia))). assert (B := HM _ (nth_In rows (0, RtoC 0) Hk)).
      replace M with ((1 - t) * M + t * M) by ring. apply Rplus_le_compat; apply Rmult_le_compat_l; lra.
  - intros Hi k Hk Ex0.
    assert (LT : forall i j, (i < j)%nat -> (j < length rows)%nat -> fst (nth i rows (0, RtoC 0)) < fst (nth j rows (0, RtoC 0))).
    { intros i j Hij Hj. induction j as [|j IH]; [lia|]. destruct (Nat.eq_dec i j) as [->|Hn]; [apply Hi; exact Hj|]. eapply Rlt_trans; [apply IH; lia|apply Hi; exact Hj]. }
    inversion H as [z' x' r' E L E'|j Hj L E'|j t Hj Ht Ex E'].
    + destruct k as [|k]; [rewrite E; reflexivity|]. exfalso. pose proof (LT 0%nat (S k) ltac:(lia) Hk) as Q. rewrite E in Q at 1. cbn [nth fst] in Q. lra.
    + destruct (Nat.eq_dec k j) as [->|Hn]; [reflexivity|]. exfalso. pose proof (LT k j ltac:(lia) ltac:(lia)). lra.
    + pose proof (LT j (S j) ltac:(lia) Hj) as Q.
      set (f0 := fst (nth j rows (0, RtoC 0))) in *. set (f1 := fst (nth (S j) rows (0, RtoC 0))) in *.
      destruct (Nat.lt_trichotomy k j) as [K|[K|K]].
      * exfalso. pose proof (LT k j K ltac:(lia)) as Q2. fold f0 in Q2. rewrite <- Ex0 in Q2. nra.
      * subst k. fold f0 in Ex0. assert (t = 0) by nra. subst t. destruct (snd (nth j rows (0, RtoC 0))), (snd (nth (S j) rows (0, RtoC 0))). unfold Cplus, Cmult, RtoC. cbn. f_equal; ring.
      * destruct (Nat.eq_dec k (S j)) as [->|Hn].
        -- fold f1 in Ex0. assert (t = 1) by nra. subst t. destruct (snd (nth j rows (0, RtoC 0))), (snd (nth (S j) rows (0, RtoC 0))). unfold Cplus, Cmult, RtoC. cbn. f_equal; ring.
        -- exfalso. pose proof (LT (S j) k ltac:(lia) Hk) as Q2. fold f1 in Q2. rewrite <- Ex0 in Q2. nra.
Qed.

(** A concrete case: three values, real, negative and complex; and the same on a grid. *)
Definition three : list C := [(3, 4); RtoC (-2); RtoC 5].
Example C84_instance :
  (exists s, fs_init (CD1 three) (Some (1 / 2)) None = Ok s /\ fs_freq s = [1 / 2; 1; 3 / 2] /\ nth 0 (amplitude s) 0 = 5 /\ nth 1 (phase s) 0 = PI) /\
  (exists s, fs_init (CD1 three) (Some (1 / 2)) (Some (mkgrid 1 (3 / 2) 3 false)) = Ok s /\ nth 1 (fs_freq s) 0 = 5 / 4) /\
  fs_init (CD1 three) None None = Err ValueError /\ fs_init (CD1 three) (Some 0) None = Err AssertionError /\
  fs_init (CD2 [(1, RtoC 2)]) (Some 1) None = Err IndexError /\ cincr (column three (1 / 2)).
Proof.
  assert (K : kept (CD1 three) (Some (1 / 2)) (column three (1 / 2)) (1 / 2)) by (cbn; repeat split; auto; lra).
  assert (F : map fst (column three (1 / 2)) = [1 / 2; 1; 3 / 2]) by (cbn; f_equal; [lra|f_equal; [lra|f_equal; lra]]).
  split; [|split; [|split; [|split; [|split]]]].
  - exists (mkfs (1 / 2) (column three (1 / 2)) 3 [1 / 2; 1; 3 / 2] (1 / 2) (3 / 2) three). split.
    + apply C84_attributes. exists (column three (1 / 2)), (1 / 2). split; [exact K|]. do 3 (split; [reflexivity|]). split; [symmetry; exact F|]. split; [reflexivity|].
      cbn. split; (split; [cbn; lra|intros x [<-|[<-|[<-|[]]]]; lra]).
    + split; [reflexivity|]. split; cbn.
      * unfold Cmod. cbn. replace (3 * (3 * 1) + 4 * (4 * 1)) with (5 * 5) by ring. apply sqrt_square. lra.
      * rewrite (carg_real (-2)). destruct (Rltb_spec (-2) 0); [reflexivity|lra].
  - destruct (proj2 (proj1 (C84_interpolated (CD1 three) (Some (1 / 2)) (mkgrid 1 (3 / 2) 3 false))) (conj (ex_intro _ _ (ex_intro _ _ K)) (Nat.lt_0_succ 2))) as (s & E).
    exists s. split; [exact E|]. destruct (proj2 (C84_interpolated _ _ _) s E) as (rows & d & _ & _ & _ & _ & _ & _ & _ & _ & G & _).
    destruct (G 1%nat ltac:(cbn; lia) ltac:(cbn; lia)) as (G1 & _). rewrite G1 by reflexivity. cbn. field.
  - apply C84_errors. left. auto.
  - apply C84_errors. right. right. repeat split. cbn. lia.
  - apply C84_errors. right. left. repeat split; [discriminate|cbn; lia].
  - intros [|[|k]] Hk; cbn in *; [lra|lra|lia].
Qed.

(** ** C85 *)
Lemma unwrap_same d l k : (k < length l)%nat -> same_angle (nth k (np_unwrap d l) 0) (nth k l 0).
Proof.
  induction k as [|k IH]; intros Hk.
  - rewrite unwrap_head. apply same_angle_refl.
  - destruct (IH ltac:(lia)) as [z Ez]. pose proof (unwrap_step d l k ltac:(lia)) as E.
    destruct (phase_fix_spec d (nth (S k) l 0 - nth k l 0)) as [[w Ew] _]. exists (z + w)%Z. rewrite plus_IZR. lra.
Qed.

Definition n_of (s : fspec) : nat := length (fs_spec s).
Definition unwrapped (s : fspec) (robust : bool) : list R := if robust then robust_unwrap (phase s) PI else np_unwrap PI (phase s).
Lemma unwrapped_length s b : length (unwrapped s b) = n_of s.
Proof.
  unfold unwrapped, n_of. destruct b; [rewrite (proj1 (C27_unwrapped (phase s) PI))|rewrite unwrap_length]; unfold phase; apply map_length.
Qed.
Lemma amp_length s : length (amplitude s) = n_of s. Proof. apply map_length. Qed.
Lemma phase_length s : length (phase s) = n_of s. Proof. apply map_length. Qed.

Definition repolar (s : fspec) (b : bool) : list C := map (fun p => polar_c (fst p) (snd p)) (combine (amplitude s) (unwrapped s b)).
Lemma repolar_length s b : length (repolar s b) = n_of s.
Proof. unfold repolar. rewrite map_length, combine_length, amp_length, unwrapped_length. lia. Qed.
Lemma repolar_nth s b k : (k < n_of s)%nat -> nth k (repolar s b) (RtoC 0) = polar_c (nth k (amplitude s) 0) (nth k (unwrapped s b) 0).
Proof.
  intros Hk. unfold repolar. set (f := fun p : R * R => polar_c (fst p) (snd p)).
  rewrite (nth_indep _ (RtoC 0) (f (0, 0))) by (rewrite map_length, combine_length, amp_length, unwrapped_length; lia).
  rewrite map_nth, combine_nth by (rewrite amp_length, unwrapped_length; reflexivity). reflexivity.
Qed.

(** When the call succeeds, and the error otherwise. *)
Theorem C85_unwrap_accepts : forall s b,
  ((exists u, get_unwrapped_phase s b = Ok u) <-> (2 <= length (fs_spec s))%nat /\ fs_df s <> 0) /\
  (forall e, get_unwrapped_phase s b = Err e -> ((length (fs_spec s) < 2)%nat /\ e = IndexError) \/ (fs_df s = 0 /\ e = AssertionError)).
Proof.
  intros s b. unfold get_unwrapped_phase. fold (unwrapped s b). fold (repolar s b). pose proof (repolar_length s b) as L. unfold n_of in L. split; [split|].
  - intros (u & H). apply C84_attributes in H as (rows & d & (A & B & C & _) & _). injection A as <-. rewrite L in C. auto.
  - intros [A B]. destruct (fs_init (CD1 (repolar s b)) (Some (fs_df s)) None) as [u|e] eqn:E; [eauto|]. exfalso.
    apply C84_errors in E as [[E _]|[(_ & E & _)|(E & _)]]; [discriminate|lia|injection E as E; auto].
  - intros e H. apply C84_errors in H as [[E _]|[(_ & E & ->)|(E & _ & ->)]]; [discriminate|left; split; [lia|reflexivity]|right; split; [injection E; auto|reflexivity]].
Qed.

(** The spectrum returned has the amplitudes it had, frequencies that are multiples of the raw
    step whatever they were before, and a phase that is again in (-pi, pi]. *)
Theorem C85_unwrapped : forall s b u, get_unwrapped_phase s b = Ok u ->
  amplitude u = amplitude s /\ length (phase u) = length (phase s) /\ fs_df u = fs_df s /\
  fs_freq u = map (fun k => INR (S k) * fs_df s) (seq 0 (length (fs_spec s))) /\
  (forall k, (k < length (phase u))%nat -> - PI < nth k (phase u) 0 <= PI) /\
  (forall k, (k < length (phase u))%nat -> nth k (amplitude s) 0 <> 0 ->
     same_angle (nth k (phase u) 0) (nth k (if b then robust_unwrap (phase s) PI else np_unwrap PI (phase s)) 0)).
Proof.
  intros s b u H. unfold get_unwrapped_phase in H. fold (unwrapped s b) in H. fold (repolar s b) in H. fold (unwrapped s b).
  apply C84_attributes in H as (rows & d & (A & B & C & ->) & D & _ & _ & F & Z & _). injection A as <-.
  assert (HL : length (map (fun i => INR (S i) * fs_df s) (seq 0 (length (repolar s b)))) = length (repolar s b)) by (rewrite map_length, seq_length; reflexivity).
  unfold column in F, Z. rewrite (combine_fst _ _ HL) in F. rewrite (combine_snd _ _ HL) in Z.
  assert (EA : amplitude u = amplitude s).
  { apply nth_ext with 0 0; [unfold amplitude; rewrite !map_length, Z, repolar_length; reflexivity|]. intros k Hk. unfold amplitude at 1. rewrite Z. unfold amplitude in Hk. rewrite map_length, Z, repolar_length in Hk.
    rewrite nth_map_C by (rewrite repolar_length; exact Hk). rewrite repolar_nth by exact Hk. apply polar_mod. unfold amplitude. rewrite nth_map_C by exact Hk. apply Cmod_ge_0. }
  assert (EL : length (phase u) = length (phase s)) by (rewrite !phase_length; unfold n_of at 1; rewrite Z, repolar_length; reflexivity).
  split; [exact EA|]. split; [exact EL|]. split; [exact D|]. split; [rewrite F, repolar_length; reflexivity|]. split.
  - intros k Hk. unfold phase in *. rewrite map_length in Hk. rewrite nth_map_C by exact Hk. apply carg_range.
  - intros k Hk Ha. rewrite EL, phase_length in Hk. set (p := nth k (unwrapped s b) 0). set (q := nth k (phase u) 0).
    assert (E : polar_c (nth k (amplitude s) 0) p = polar_c (nth k (amplitude s) 0) q).
    { rewrite <- EA at 2. unfold p, q. rewrite <- repolar_nth by exact Hk. unfold amplitude, phase. rewrite !nth_map_C by (rewrite Z, repolar_length; exact Hk). rewrite Z. unfold polar_c. symmetry. apply carg_spec. }
    unfold polar_c in E. apply (f_equal (Cmult (Cinv (RtoC (nth k (amplitude s) 0))))) in E.
    assert (HC : RtoC (nth k (amplitude s) 0) <> RtoC 0) by (intros X; apply Ha; apply (f_equal fst) in X; exact X).
    rewrite !Cmult_assoc, !Cinv_l, !Cmult_1_l in E by exact HC. apply same_angle_of_cis. symmetry. exact E.
Qed.

(** Hence nothing is unwrapped: the spectrum, and with it the phase, is the one it was. *)
Theorem C85_phase_unchanged : forall s u b, get_unwrapped_phase s b = Ok u ->
  (b = true -> (forall i j, ~ slow_climb (phase s) i j) /\ (forall j, ~ opening_climb (phase s) j)) ->
  fs_spec u = fs_spec s /\ phase u = phase s.
Proof.
  intros s u b H Hc. assert (E : fs_spec u = fs_spec s); [|split; [exact E|unfold phase; rewrite E; reflexivity]].
  unfold get_unwrapped_phase in H. fold (unwrapped s b) in H. fold (repolar s b) in H.
  apply C84_attributes in H as (rows & d & (A & B & C & ->) & D & _ & _ & F & Z & _).
  assert (HL : length (map (fun i => INR (S i) * d) (seq 0 (length (repolar s b)))) = length (repolar s b)) by (rewrite map_length, seq_length; reflexivity).
  unfold column in Z. rewrite (combine_snd _ _ HL) in Z. rewrite Z. apply nth_ext with (RtoC 0) (RtoC 0); [apply repolar_length|].
  intros k Hk. rewrite repolar_length in Hk. rewrite repolar_nth by exact Hk. unfold amplitude. rewrite nth_map_C by exact Hk. apply polar_arg_same.
  assert (SA : same_angle (nth k (unwrapped s b) 0) (nth k (phase s) 0)).
  { unfold unwrapped. destruct b.
    - destruct (Hc eq_refl) as [H1 H2]. apply C27_no_climb; auto. rewrite phase_length. exact Hk.
    - apply unwrap_same. rewrite phase_length. exact Hk. }
  unfold phase in SA. rewrite nth_map_C in SA by exact Hk. exact SA.
Qed.

(** A phase that jumps by more than pi still does so in the result. *)
Theorem C85_unwrapping_refuted : exists s u, get_unwrapped_phase s false = Ok u /\ Rabs (nth 1 (phase u) 0 - nth 0 (phase u) 0) > PI.
Proof.
  set (l := [RtoC (-1); (0, -1)] : list C).
  assert (E : exists s, fs_init (CD1 l) (Some 1) None = Ok s /\ fs_spec s = l /\ fs_df s = 1).
  { exists (mkfs 1 (column l 1) 2 (map fst (column l 1)) 1 2 l). split; [|split; reflexivity]. apply C84_attributes. exists (column l 1), 1.
    split; [cbn; repeat split; auto; lra|]. do 5 (split; [reflexivity|]). cbn. split; (split; [cbn; lra|intros x [<-|[<-|[]]]; lra]). }
  destruct E as (s & _ & Es & Ed). exists s. destruct (proj2 (proj1 (C85_unwrap_accepts s false))) as (u & Hu); [rewrite Es, Ed; cbn; split; [lia|lra]|].
  exists u. split; [exact Hu|]. destruct (C85_phase_unchanged s u false Hu ltac:(discriminate)) as [_ ->]. unfold phase. rewrite Es. cbn [l map nth].
  rewrite (carg_real (-1)). destruct (Rltb_spec (-1) 0); [|lra].
  assert (EC : carg (0, -1) = - (PI / 2)).
  { unfold carg. assert (M : Cmod (0, -1) = 1) by (unfold Cmod; cbn; replace (0 * (0 * 1) + -1 * (-1 * 1)) with 1 by ring; apply sqrt_1). rewrite M.
    cbn [Re Im fst snd]. destruct (Reqb_spec 1 0); [lra|]. destruct (Rltb_spec (-1) 0); [|lra]. replace (0 / 1) with 0 by field. rewrite acos_0. ring. }
  rewrite EC. pose proof PI_RGT_0. rewrite Rabs_left by lra. lra.
Qed.

(** The frequencies survive exactly when they were the multiples of the raw step. *)
Theorem C85_frequencies_kept_iff : forall s b u, get_unwrapped_phase s b = Ok u -> length (fs_freq s) = length (fs_spec s) ->
  (fs_freq u = fs_freq s <-> forall k, (k < length (fs_freq s))%nat -> nth k (fs_freq s) 0 = INR (S k) * fs_df s).
Proof.
  intros s b u H HL. destruct (C85_unwrapped s b u H) as (_ & _ & _ & F & _). rewrite F.
  assert (N : forall k, (k < length (fs_freq s))%nat -> nth k (map (fun k => INR (S k) * fs_df s) (seq 0 (length (fs_spec s)))) 0 = INR (S k) * fs_df s).
  { intros k Hk. set (f := fun k => INR (S k) * fs_df s). rewrite (nth_indep _ 0 (f 0%nat)) by (rewrite map_length, seq_length; lia). rewrite map_nth, seq_nth by lia. reflexivity. }
  split.
  - intros E k Hk. rewrite <- E. apply N. exact Hk.
  - intros E. apply nth_ext with 0 0; [rewrite map_length, seq_length; auto|]. intros k Hk. rewrite map_length, seq_length in Hk. rewrite N, E by lia. reflexivity.
Qed.

(** The frequency of the first peak of the amplitude. *)
Theorem C85_peak : forall s, length (fs_freq s) = length (fs_spec s) ->
  ((length (fs_spec s) < 2)%nat -> get_f0 s = Err UnboundLocalError) /\
  (forall j, first_drop (amplitude s) j -> (j + 2 < length (fs_spec s))%nat -> get_f0 s = Ok (nth j (fs_freq s) 0)) /\
  ((2 <= length (fs_spec s))%nat -> (forall j, first_drop (amplitude s) j -> (j + 2 = length (fs_spec s))%nat) -> get_f0 s = Ok (last (fs_freq s) 0)).
Proof.
  intros s HL. unfold get_f0, amplitude_2col. assert (HA : length (fs_freq s) = length (amplitude s)) by (rewrite amp_length; exact HL).
  assert (E : length (combine (fs_freq s) (amplitude s)) = length (fs_spec s)) by (rewrite combine_length, <- HA; lia).
  assert (EV : vals (combine (fs_freq s) (amplitude s)) = amplitude s) by (apply combine_snd; exact HA).
  assert (ET : times (combine (fs_freq s) (amplitude s)) = fs_freq s) by (apply combine_fst; exact HA).
  destruct (C21_find_f0 (combine (fs_freq s) (amplitude s))) as (A & B & C). rewrite E, EV, ET in *. auto.
Qed.

(** Smoothing returns something only together with a figure. *)
Theorem C85_smoothing_needs_a_figure : forall s L log_scale w n fe b1 b2 re im,
  log_smooth (map Re (fs_spec s)) L w (negb log_scale) (Some (fs_fmin s)) (Some (fs_fmax s)) n fe b1 b2 = Ok re ->
  log_smooth (map Im (fs_spec s)) L w (negb log_scale) (Some (fs_fmin s)) (Some (fs_fmax s)) n fe b1 b2 = Ok im ->
  get_smoothed s L false log_scale w n fe b1 b2 = Err UnboundLocalError /\
  exists zs, get_smoothed s L true log_scale w n fe b1 b2 = Ok zs /\ (length re = length im -> map Re zs = re /\ map Im zs = im).
Proof.
  intros s L lg w n fe b1 b2 re im E1 E2. unfold get_smoothed. rewrite E1. cbn [bind]. rewrite E2. cbn [bind]. split; [reflexivity|].
  eexists. split; [reflexivity|]. intros HL. split; [apply (combine_fst re im HL)|apply (combine_snd re im HL)].
Qed.
Theorem C85_smoothing_without_figure_fails : forall s L log_scale w n fe b1 b2, exists e, get_smoothed s L false log_scale w n fe b1 b2 = Err e.
Proof.
  intros. unfold get_smoothed. destruct (log_smooth (map Re _) _ _ _ _ _ _ _ _ _); [|cbn; eauto]. cbn [bind]. destruct (log_smooth (map Im _) _ _ _ _ _ _ _ _ _); cbn; eauto.
Qed.

(** Raw data whose axis starts at 2 Hz with a step of 1 Hz comes back with an axis from 1 Hz. *)
Example C85_instance : exists s u,
  fs_init (CD2 [(2, (3, 4)); (3, RtoC 7); (4, RtoC 1)]) None None = Ok s /\ get_unwrapped_phase s false = Ok u /\
  fs_freq s = [2; 3; 4] /\ nth 0 (fs_freq u) 0 = 1 /\ fs_spec u = fs_spec s /\ get_f0 s = Ok 4 /\ get_smoothed s 2 false true Hanning None false 0 0 = Err UnboundLocalError.
Proof.
  set (rows := [(2, (3, 4)); (3, RtoC 7); (4, RtoC 1)] : list (R * C)). set (s := mkfs (3 - 2) rows 3 [2; 3; 4] 2 4 (map snd rows)).
  assert (E : fs_init (CD2 rows) None None = Ok s).
  { apply C84_attributes. exists rows, (3 - 2). split; [cbn; repeat split; lia|]. do 5 (split; [reflexivity|]). cbn. split; (split; [cbn; lra|intros x [<-|[<-|[<-|[]]]]; lra]). }
  destruct (proj2 (proj1 (C85_unwrap_accepts s false))) as (u & Hu); [cbn; split; [lia|lra]|]. exists s, u. split; [exact E|]. split; [exact Hu|]. split; [reflexivity|].
  destruct (C85_unwrapped s false u Hu) as (_ & _ & _ & F & _). split; [rewrite F; cbn; lra|]. split; [apply (C85_phase_unchanged s u false Hu); discriminate|]. split.
  - apply (proj2 (C85_peak s eq_refl)); [cbn; lia|]. intros j (A & B & _).
    assert (M : amplitude s = [5; 7; 1]).
    { unfold amplitude, s, rows. cbn [fs_spec map snd]. rewrite !Cmod_R, !Rabs_pos_eq by lra. f_equal. unfold Cmod. cbn. replace (3 * (3 * 1) + 4 * (4 * 1)) with (5 * 5) by ring. apply sqrt_square. lra. }
    rewrite M in *. destruct j as [|[|j]]; cbn in *; [lra|reflexivity|lia].
  - reflexivity.
Qed.
