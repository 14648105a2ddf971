(** C57, C63, C86, C87: results objects and the [run] methods. *)
From Coq Require Import Reals List Bool ZArith Lia Lra String.
From Coquelicot Require Import Complex.
From Coq Require Import List.
From Verif Require Import Base M_generic P_generic M_profile P_profile Prop_profile M_vs_profile P_vs_profile M_motion P_motion M_interp M_dft M_signal M_linear M_simlin P_simlin Prop_simlin M_eqlin P_eqlin Prop_eqlin M_amplify M_freqspec Prop_freqspec M_results.
Import ListNotations.
Open Scope string_scope.
Open Scope list_scope.
Open Scope R_scope.

(** ** C63: the constructor *)

(** Is the argument an instance (or [None], where allowed)? *)
Definition instance {A} (x : arg A) : Prop := match x with Inst _ => True | _ => False end.
Definition instance_or_none {A} (x : arg A) : Prop := match x with Wrong => False | _ => True end.
(** Absent, or a two-dimensional array of [n] rows and [c] columns. *)
Definition fits (x : arg arr) (n c : nat) : Prop :=
  match x with PyNone => True | Inst a => a_n a = n /\ List.length (a_cols a) = c | Wrong => False end.
Definition absent {A} (x : arg A) : Prop := x = PyNone.

Record wanted (input surface : arg motion) (profile : arg vsobj) (max_avd max_gt : arg arr) (tf tfs : arg fspec)
    (a v d tau gamma : arg arr) (s : motion) (p : vsobj) : Prop := mkwanted {
  w_input : instance input; w_surface : surface = Inst s; w_profile : profile = Inst p;
  w_tf : instance_or_none tf; w_tfs : instance_or_none tfs;
  w_a : fits a (m_npts s) (o_nlayer p + 1); w_v : fits v (m_npts s) (o_nlayer p + 1); w_d : fits d (m_npts s) (o_nlayer p + 1);
  w_tau : fits tau (m_npts s) (o_nlayer p); w_gamma : fits gamma (m_npts s) (o_nlayer p);
  w_max : absent max_avd \/ absent max_gt \/
          (instance max_avd /\ instance max_gt /\ fits max_avd (o_nlayer p + 1) 4 /\ fits max_gt (o_nlayer p) 3) }.

Lemma of_shape_ok x n c u : of_shape x n c = Ok u <-> fits x n c.
Proof.
  destruct u. destruct x as [a| |]; cbn; [|tauto|split; [discriminate|tauto]].
  destruct (Nat.eqb_spec (a_n a) n), (Nat.eqb_spec (List.length (a_cols a)) c); cbn; split; intros H; try discriminate; try tauto; lia.
Qed.
Lemma of_shape_err x n c e : of_shape x n c = Err e -> (x = Wrong /\ e = TypeError) \/ (instance x /\ ~ fits x n c /\ e = AssertionError).
Proof.
  destruct x as [a| |]; cbn; [|discriminate|intros [= <-]; auto].
  destruct (Nat.eqb_spec (a_n a) n), (Nat.eqb_spec (List.length (a_cols a)) c); cbn; intros [= <-]; right; repeat split; tauto.
Qed.
Lemma required_ok {A} (x : arg A) a : required x = Ok a <-> x = Inst a.
Proof. destruct x; cbn; split; intros H; try discriminate; congruence. Qed.
Lemma optional_ok {A} (x : arg A) o : optional x = Ok o <-> instance_or_none x /\ o = given x.
Proof. destruct x; cbn; split; intros H; try discriminate; try tauto; try (split; [auto|congruence]); destruct H as [? ->]; tauto. Qed.

(** A results object is made exactly of arguments of the right classes and shapes; it keeps
    what it is given, except that maxima given alone are dropped. *)
Theorem C63_accepts_iff : forall time input surface profile mx mg tf tfs a v d tau gamma name dir x,
  results_init time input surface profile mx mg tf tfs a v d tau gamma name dir = Ok x <->
  exists s p, wanted input surface profile mx mg tf tfs a v d tau gamma s p /\
    Inst (rr_input x) = input /\ rr_surface x = s /\ rr_profile x = p /\ rr_tf x = given tf /\ rr_tf_smooth x = given tfs /\
    rr_accel x = given a /\ rr_veloc x = given v /\ rr_displ x = given d /\ rr_stress x = given tau /\ rr_strain x = given gamma /\
    (absent mx \/ absent mg -> rr_max_avd x = None /\ rr_max_gt x = None) /\
    (~ (absent mx \/ absent mg) -> rr_max_avd x = given mx /\ rr_max_gt x = given mg) /\
    rr_name x = match name with Some n => n | None => "accel_" ++ time end%string /\
    rr_dir x = match dir with Some n => n | None => "./sim_" ++ time end%string.
Proof.
  intros. unfold results_init. split.
  - intros H. apply bind_ok in H as (i & Hi & H). apply bind_ok in H as (s & Hs & H). apply bind_ok in H as (p & Hp & H).
    apply bind_ok in H as (t & Ht & H). apply bind_ok in H as (ts & Hts & H).
    apply bind_ok in H as (u1 & H1 & H). apply bind_ok in H as (u2 & H2 & H). apply bind_ok in H as (u3 & H3 & H). apply bind_ok in H as (u4 & H4 & H). apply bind_ok in H as (u5 & H5 & H).
    apply bind_ok in H as (m & Hm & H). injection H as <-.
    apply required_ok in Hi, Hs, Hp. apply optional_ok in Ht as [Ht ->], Hts as [Hts ->]. apply of_shape_ok in H1, H2, H3, H4, H5.
    exists s, p. subst input surface profile. cbn [rr_input rr_surface rr_profile rr_tf rr_tf_smooth rr_accel rr_veloc rr_displ rr_stress rr_strain rr_max_avd rr_max_gt rr_name rr_dir].
    assert (HM : (absent mx \/ absent mg -> m = (None, None)) /\ (~ (absent mx \/ absent mg) -> instance mx /\ instance mg /\ fits mx (o_nlayer p + 1) 4 /\ fits mg (o_nlayer p) 3 /\ m = (given mx, given mg))).
    { unfold absent. destruct mx as [ax| |], mg as [ag| |]; cbn [is_2d given] in Hm |- *; try (injection Hm as <-; split; [auto|intros N; exfalso; apply N; auto]); try discriminate Hm.
      apply bind_ok in Hm as (? & _ & Hm). apply bind_ok in Hm as (? & _ & Hm). apply bind_ok in Hm as (? & Q1 & Hm). apply bind_ok in Hm as (? & Q2 & Hm). injection Hm as <-. apply of_shape_ok in Q1, Q2.
      split; [intros [N|N]; discriminate|]. intros _. repeat split; apply Q1 || apply Q2. }
    assert (DEC : (absent mx \/ absent mg) \/ ~ (absent mx \/ absent mg)) by (unfold absent; destruct mx, mg; auto; right; intros [N|N]; discriminate).
    split.
    + constructor; cbn; auto. destruct DEC as [D|D]; [tauto|]. right. right. destruct (proj2 HM D) as (? & ? & ? & ? & _). auto.
    + repeat (split; [reflexivity|]). split; [intros D; rewrite (proj1 HM D); auto|]. split; [|auto].
      intros D. destruct (proj2 HM D) as (_ & _ & _ & _ & ->). auto.
  - intros (s & p & W & E1 & E2 & E3 & E4 & E5 & E6 & E7 & E8 & E9 & E10 & E11 & E12 & E13 & E14). destruct W.
    subst input surface profile. cbn [required bind].
    rewrite (proj2 (optional_ok tf (given tf)) (conj w_tf0 eq_refl)), (proj2 (optional_ok tfs (given tfs)) (conj w_tfs0 eq_refl)). cbn [bind].
    rewrite (proj2 (of_shape_ok a _ _ tt) w_a0), (proj2 (of_shape_ok v _ _ tt) w_v0), (proj2 (of_shape_ok d _ _ tt) w_d0), (proj2 (of_shape_ok tau _ _ tt) w_tau0), (proj2 (of_shape_ok gamma _ _ tt) w_gamma0). cbn [bind].
    unfold absent in *. destruct x; cbn in *. subst.
    destruct mx as [ax| |], mg as [ag| |]; cbn [is_2d given bind fst snd] in *;
      try (destruct E11 as [-> ->]; [auto|reflexivity]); try (destruct w_max0 as [N|[N|(N1 & N2 & _)]]; discriminate || contradiction).
    destruct w_max0 as [N|[N|(_ & _ & N1 & N2)]]; try discriminate.
    rewrite (proj2 (of_shape_ok (Inst ax) _ _ tt) N1), (proj2 (of_shape_ok (Inst ag) _ _ tt) N2). cbn [bind fst snd].
    destruct E12 as [-> ->]; [intros [N|N]; discriminate|reflexivity].
Qed.

(** Every rejection is a TypeError, for something that is not of the class required or not a
    two-dimensional array, or an AssertionError, for an array of another shape. *)
Theorem C63_errors : forall time input surface profile mx mg tf tfs a v d tau gamma name dir e,
  results_init time input surface profile mx mg tf tfs a v d tau gamma name dir = Err e ->
  (e = TypeError /\ (~ instance input \/ ~ instance surface \/ ~ instance profile \/ tf = Wrong \/ tfs = Wrong \/
     a = Wrong \/ v = Wrong \/ d = Wrong \/ tau = Wrong \/ gamma = Wrong \/ (mx = Wrong /\ ~ absent mg) \/ (mg = Wrong /\ ~ absent mx))) \/
  (e = AssertionError /\ exists s p, surface = Inst s /\ profile = Inst p /\
     let bad x n c := instance x /\ ~ fits x n c in
     (bad a (m_npts s) (o_nlayer p + 1)%nat \/ bad v (m_npts s) (o_nlayer p + 1)%nat \/ bad d (m_npts s) (o_nlayer p + 1)%nat \/
      bad tau (m_npts s) (o_nlayer p) \/ bad gamma (m_npts s) (o_nlayer p) \/
      (instance mx /\ instance mg /\ (bad mx (o_nlayer p + 1)%nat 4%nat \/ bad mg (o_nlayer p) 3%nat)))).
Proof.
  intros. unfold results_init in H.
  destruct input as [i| |]; cbn [required bind] in H; [|left; injection H as <-; cbn; tauto|left; injection H as <-; cbn; tauto].
  destruct surface as [s| |]; cbn [required bind] in H; [|left; injection H as <-; cbn; tauto|left; injection H as <-; cbn; tauto].
  destruct profile as [p| |]; cbn [required bind] in H; [|left; injection H as <-; cbn; tauto|left; injection H as <-; cbn; tauto].
  assert (OT : optional tf = Err TypeError /\ tf = Wrong \/ exists o, optional tf = Ok o) by (destruct tf; cbn; eauto).
  assert (OS : optional tfs = Err TypeError /\ tfs = Wrong \/ exists o, optional tfs = Ok o) by (destruct tfs; cbn; eauto).
  destruct OT as [[E W]|[o E]]; rewrite E in H; cbn [bind] in H; [left; injection H as <-; tauto|].
  destruct OS as [[E' W]|[o' E']]; rewrite E' in H; cbn [bind] in H; [left; injection H as <-; tauto|].
  assert (SE : forall x n c (Q : of_shape x n c = Err e), e = TypeError /\ x = Wrong \/ e = AssertionError /\ instance x /\ ~ fits x n c).
  { intros x n c Q. apply of_shape_err in Q. tauto. }
  cbv zeta.
  destruct (of_shape a _ _) as [[]|?] eqn:Q in H; cbn [bind] in H; [|injection H as ->; apply SE in Q as [[-> Q]|[-> Q]]; [left; tauto|right; split; [reflexivity|exists s, p; tauto]]]. clear Q.
  destruct (of_shape v _ _) as [[]|?] eqn:Q in H; cbn [bind] in H; [|injection H as ->; apply SE in Q as [[-> Q]|[-> Q]]; [left; tauto|right; split; [reflexivity|exists s, p; tauto]]]. clear Q.
  destruct (of_shape d _ _) as [[]|?] eqn:Q in H; cbn [bind] in H; [|injection H as ->; apply SE in Q as [[-> Q]|[-> Q]]; [left; tauto|right; split; [reflexivity|exists s, p; tauto]]]. clear Q.
  destruct (of_shape tau _ _) as [[]|?] eqn:Q in H; cbn [bind] in H; [|injection H as ->; apply SE in Q as [[-> Q]|[-> Q]]; [left; tauto|right; split; [reflexivity|exists s, p; tauto]]]. clear Q.
  destruct (of_shape gamma _ _) as [[]|?] eqn:Q in H; cbn [bind] in H; [|injection H as ->; apply SE in Q as [[-> Q]|[-> Q]]; [left; tauto|right; split; [reflexivity|exists s, p; tauto]]]. clear Q.
  unfold absent. destruct mx as [ax| |], mg as [ag| |]; cbn [is_2d bind] in H; try discriminate H;
    try (injection H as <-; left; split; [reflexivity|]; do 10 right; (left; split; [reflexivity|discriminate]) || (right; split; [reflexivity|discriminate])).
  destruct (of_shape (Inst ax) _ _) as [[]|?] eqn:Q in H; cbn [bind] in H.
  - clear Q. destruct (of_shape (Inst ag) _ _) as [[]|?] eqn:Q in H; cbn [bind] in H; [discriminate H|]. injection H as ->. apply SE in Q as [[_ Q]|[-> Q]]; [discriminate|].
    right. split; [reflexivity|]. exists s, p. do 2 (split; [reflexivity|]). do 5 right. cbn [instance]. auto.
  - injection H as ->. apply SE in Q as [[_ Q]|[-> Q]]; [discriminate|].
    right. split; [reflexivity|]. exists s, p. do 2 (split; [reflexivity|]). do 5 right. cbn [instance]. auto.
Qed.

(** ** What a run returns *)

(** The columns of the maxima: depth and three, or two, values per layer. *)
Definition avd_columns (l : list (R * (R * R * R))) : list (list R) :=
  [map fst l; map (fun x => fst (fst (snd x))) l; map (fun x => snd (fst (snd x))) l; map (fun x => snd (snd x)) l].
Definition gt_columns (l : list (R * (R * R))) : list (list R) :=
  [map fst l; map (fun x => fst (snd x)) l; map (fun x => snd (snd x)) l].

(** The object carries the simulation [r] of the motion [input]: its histories, maxima, surface
    motion and transfer function with its frequencies; [den] is the factor of the densities of the
    profile; everything in memory before is as it was. *)
Record carries (h : heap) (sh : sheap) (h' : heap) (sh' : sheap) (input : motion) (r : simres) (den : R) (x : results) : Prop := mkcarries {
  c_input : rr_input x = input;
  c_surface : sig_at sh' (m_accel (rr_surface x)) = sr_surface r;
  c_npts : m_npts (rr_surface x) = List.length (sr_surface r);
  c_rows : o_rows h' (rr_profile x) = map (fun q => r_h q :: r_vs q :: match r_rest q with xi :: rho :: m => xi :: rho * den :: m | l => l end) (sr_profile r);
  c_layers : S (o_nlayer (rr_profile x)) = List.length (sr_profile r);
  c_tf : exists sp, rr_tf x = Some sp /\ fs_spec sp = sr_tf r /\ fs_freq sp = sr_freq r;
  c_hist : rr_accel x = Some (mkarr (List.length (sr_surface r)) (sr_a r)) /\ rr_veloc x = Some (mkarr (List.length (sr_surface r)) (sr_v r)) /\
    rr_displ x = Some (mkarr (List.length (sr_surface r)) (sr_d r)) /\ rr_stress x = Some (mkarr (List.length (sr_surface r)) (sr_tau r)) /\
    rr_strain x = Some (mkarr (List.length (sr_surface r)) (sr_gamma r));
  c_max : rr_max_avd x = Some (mkarr (List.length (sr_max_avd r)) (avd_columns (sr_max_avd r))) /\ rr_max_gt x = Some (mkarr (List.length (sr_max_gt r)) (gt_columns (sr_max_gt r)));
  c_old : (forall l, (l < List.length h)%nat -> tbl h' l = tbl h l) /\ (forall l, (l < List.length sh)%nat -> sig_at sh' l = sig_at sh l) }.

(** *** Pieces *)
Definition five (q : row) : Prop := exists xi rho m, r_rest q = [xi; rho; m].
Lemma convert_cells q : five q -> convert_row D_1 R_g (row_cells q) = r_h q :: r_vs q :: match r_rest q with xi :: rho :: m => xi :: rho * 1000 :: m | l => l end.
Proof. intros (xi & rho & m & E). unfold row_cells. rewrite E. apply convert_row_5. Qed.

Lemma conv_m s : conv U_m s = s.
Proof. unfold conv. rewrite <- (map_id s) at 2. apply map_ext. intros [a b]. reflexivity. Qed.
Lemma set_nth_id {A} i (x d : A) l : (i < List.length l)%nat -> nth i l d = x -> M_vs_profile.set_nth i x l = l.
Proof. revert i. induction l as [|y l IH]; intros [|i] H E; cbn in *; try lia; [congruence|]. f_equal. apply IH; [lia|exact E]. Qed.

Lemma gm_new (sh : sheap) (s : signal) : (2 <= List.length s)%nat -> exists sh' m,
  gm_init (sh ++ [s]) (List.length sh) U_m T_accel = (sh', Ok m) /\ sig_at sh' (m_accel m) = s /\ m_npts m = List.length s /\
  (forall l, (l < List.length sh)%nat -> sig_at sh' l = sig_at sh l).
Proof.
  intros L. assert (ES : sig_at (sh ++ [s]) (List.length sh) = s) by (unfold sig_at; rewrite app_nth2, Nat.sub_diag by lia; reflexivity).
  rewrite gm_init_eq; [|rewrite ES; exact L|repeat split; try discriminate; intros [E|E]; discriminate].
  rewrite ES, conv_m. rewrite (set_nth_id (A := signal) (List.length sh) s [] (sh ++ [s])) by (try exact ES; rewrite app_length; cbn; lia).
  destruct (gm_finish_spec (sh ++ [s]) (List.length sh) (step_of s) T_accel) as (h' & m & a & v & u & E & HH & _ & _ & Ha & _ & _ & Hm & _ & Hn & _ & _ & _ & _ & _ & Hold & _);
    [rewrite app_length; cbn; lia|rewrite ES; exact L|discriminate|].
  exists h', m. split; [exact E|]. rewrite Hm. split; [rewrite Hold by (rewrite app_length; cbn; lia); exact ES|]. split; [rewrite Hn, ES; reflexivity|].
  intros l Hl. rewrite Hold by (rewrite app_length; lia). unfold sig_at. rewrite app_nth1 by exact Hl. reflexivity.
Qed.
Lemma gm_short (sh : sheap) (s : signal) : (List.length s < 2)%nat -> exists e, gm_init (sh ++ [s]) (List.length sh) U_m T_accel = (sh ++ [s], Err e) /\ (e = ValueError \/ e = IndexError).
Proof.
  intros L. unfold gm_init. assert (ES : sig_at (sh ++ [s]) (List.length sh) = s) by (unfold sig_at; rewrite app_nth2, Nat.sub_diag by lia; reflexivity).
  rewrite ES. destruct (Nat.eqb_spec (List.length s) 1); [eauto|]. destruct s as [|? [|]]; cbn in *; try lia. cbn. eauto.
Qed.

Lemma five_rows t : valid_table t -> t_ncol t = 5%nat -> Forall five (map row_of (t_rows t)).
Proof.
  intros (f & Ec & init & lst & Er & Fi & Gl) C5. destruct f; [|rewrite C5 in Ec; discriminate]. rewrite Er, Forall_map. 
  assert (G : forall b r, good_row true b r -> five (row_of r)) by (intros b r (a & c & tl & -> & _ & _ & xi & rho & m & -> & _); exists xi, rho, (IZR m); reflexivity).
  apply Forall_app. split; [eapply Forall_impl; [|exact Fi]; intros r; apply G|]. constructor; [apply (G _ _ Gl)|constructor].
Qed.
Lemma strat_five t p : valid_table t -> t_ncol t = 5%nat -> stratify (map row_of (t_rows t)) = Ok p -> Forall five p.
Proof.
  intros V C5 E. pose proof (five_rows t V C5) as F. unfold stratify in E. destruct (last_res (map row_of (t_rows t))) as [lst|] eqn:EL; [|discriminate]. cbn [bind] in E.
  assert (SF : forall l, Forall five l -> Forall five (flat_map sublayers l)).
  { intros l Fl. apply Forall_forall. intros x I. apply in_flat_map in I as (y & I1 & I2). apply in_sublayers in I2. rewrite Forall_forall in Fl. specialize (Fl y I1). unfold five in *. rewrite I2. exact Fl. }
  destruct (Reqb (r_h lst) 0); injection E as <-; [|apply SF, F]. apply Forall_app.
  assert (IL : In lst (map row_of (t_rows t))).
  { unfold last_res in EL. destruct (rev _) as [|y l] eqn:ER in EL; [discriminate|]. injection EL as <-. apply in_rev. rewrite ER. left. reflexivity. }
  split.
  - apply SF. apply Forall_forall. intros x I. rewrite Forall_forall in F. apply F. destruct (map row_of (t_rows t)) as [|y l] eqn:EM using rev_ind; [destruct I|]. rewrite removelast_last in I. apply in_or_app. auto.
  - constructor; [|constructor]. rewrite Forall_forall in F. exact (F lst IL).
Qed.

(** The rows of a re-discretised profile form an acceptable table. *)
Lemma sub_good r g b x : good_row true b r -> 0 < r_h (row_of r) -> subdivides (row_of r) g -> In x g -> (b = false) -> good_row true false (row_cells x).
Proof.
  intros (thk & vs & tl & -> & _ & Hv & xi & rho & m & -> & X & Rh & Hm) H0 (_ & F & _) I ->. rewrite Forall_forall in F. destruct (F x I) as (E1 & E2 & H1 & H2).
  unfold row_of in *. cbn [r_vs r_rest r_h cell nth skipn] in *. exists (r_h x), (r_vs x), (r_rest x). split; [reflexivity|]. split; [exact H1|]. split; [rewrite E1; exact Hv|]. exists xi, rho, m. auto.
Qed.
Lemma strat_good t p init lst : valid_table t -> t_ncol t = 5%nat -> t_rows t = init ++ [lst] -> cell 0 lst = 0 -> stratify (map row_of (t_rows t)) = Ok p ->
  good_rows true (map row_cells p) /\ last (map r_h p) 0 = 0 /\ p <> [].
Proof.
  intros (f & Ec & i0 & l0 & Er0 & Fi & Gl) C5 Er Z ES. destruct f; [|rewrite C5 in Ec; discriminate]. rewrite Er in Er0. apply app_inj_tail in Er0 as [<- <-].
  assert (Z' : r_h (row_of lst) = 0) by exact Z.
  assert (EL : last_res (map row_of (init ++ [lst])) = Ok (row_of lst)) by (rewrite map_app; apply last_res_app).
  assert (FR : Forall (fun r => 0 < r_h r /\ 0 < r_vs r) (removelast (map row_of (init ++ [lst])))).
  { rewrite map_app; cbn [map]; rewrite removelast_last, Forall_map. eapply Forall_impl; [|exact Fi]. intros r G. destruct (good_soil false r G) as [[(V & _) _] H]. auto. }
  destruct (C06_stratify_refines _ _ EL Z' FR) as (gs & ES' & F2). rewrite Er, ES' in ES. injection ES as <-.
  rewrite map_app in F2; cbn [map] in F2; rewrite removelast_last in F2. split; [|split].
  - exists (map row_cells (concat gs)). eexists. rewrite map_app. split; [reflexivity|]. split.
    + rewrite Forall_map. clear - Fi F2. revert gs F2. induction Fi as [|r init G Fi IH]; intros gs F2; cbn [map] in F2; inversion F2 as [|? g ? gs' HS F2']; subst; cbn [concat]; [constructor|].
      apply Forall_app. split; [|apply IH, F2']. apply Forall_forall. intros x I. apply (sub_good r g false x G); auto. apply (good_soil false r G).
    + destruct Gl as (thk & vs & tl & -> & Ht & Hv & rest). exists 0, vs, tl. split; [reflexivity|]. split; [lra|]. split; [exact Hv|exact rest].
  - rewrite map_app; cbn [map]; rewrite last_last. reflexivity.
  - destruct (concat gs); discriminate.
Qed.

Lemma vs_new h q : good_rows true (map row_cells q) -> last (map r_h q) 0 = 0 -> exists h' o,
  vs_init (h ++ [mktable false 5 (map row_cells q)]) (List.length h) D_1 R_g false 3 = (h', Ok o) /\
  o_rows h' o = map (convert_row D_1 R_g) (map row_cells q) /\ S (o_nlayer o) = List.length q /\
  (forall l, (l < List.length h)%nat -> tbl h' l = tbl h l).
Proof.
  intros G Z. set (t := mktable false 5 (map row_cells q)). assert (ET : tbl (h ++ [t]) (List.length h) = t) by (unfold tbl; rewrite app_nth2, Nat.sub_diag by lia; reflexivity).
  assert (V : valid_table t) by (exists true; split; [reflexivity|exact G]).
  destruct (vs_init_spec (h ++ [t]) (List.length h) D_1 R_g false 3) as (v30 & _ & E); rewrite ?ET; try discriminate; auto; [rewrite app_length; cbn; lia|].
  rewrite ET in E. rewrite E. eexists _, _. split; [reflexivity|]. unfold caller_after. rewrite ET. cbn [inplace t_ncol t Nat.eqb andb orb].
  assert (LL : forall x y, List.length (M_vs_profile.set_nth (List.length h) x (h ++ [y])) = List.length (h ++ [y])) by (intros; apply set_nth_length).
  assert (FR : final_rows t D_1 R_g false 3 = map (convert_row D_1 R_g) (map row_cells q)) by reflexivity.
  split; [|split].
  - unfold o_rows, tbl. cbn [o_tbl]. match goal with |- context[nth ?n (?l ++ ?m) ?e] => assert (EN : n = List.length l) by (symmetry; apply set_nth_length); rewrite EN, app_nth2, Nat.sub_diag by lia end. reflexivity.
  - cbn [o_nlayer]. rewrite FR, !map_map.
    assert (E0 : map (fun x => cell 0 (convert_row D_1 R_g (row_cells x))) q = map r_h q) by (apply map_ext; intros x; unfold convert_row, row_cells; cbn; destruct (r_rest x) as [|? [|? ?]]; reflexivity).
    rewrite E0, Z. destruct (Reqb_spec 0 0); [|lra]. rewrite map_length. destruct q; [|cbn; lia]. exfalso. destruct G as (i & l & E1 & _). destruct i; discriminate E1.
  - intros l Hl. unfold tbl. rewrite app_nth1 by (rewrite set_nth_length, app_length; lia). rewrite set_nth_other by lia. rewrite app_nth1 by exact Hl. reflexivity.
Qed.

Definition named (time : string) (name dir : option string) (x : results) : Prop :=
  rr_name x = match name with Some n => n | None => "accel_" ++ time end%string /\ rr_dir x = match dir with Some n => n | None => "./sim_" ++ time end%string.
Definition harmonics (c : R) (n : nat) : list R := map (fun i => INR (S i) * c) (seq 0 n).
Lemma harmonics_nth c n k : (k < n)%nat -> nth_error (harmonics c n) k = Some (INR (S k) * c).
Proof. intros H. unfold harmonics. erewrite map_nth_error; [reflexivity|]. rewrite nth_error_nth' with (d := O) by (rewrite seq_length; exact H). rewrite seq_nth by exact H. reflexivity. Qed.
Lemma harmonics_get c n k : (k < n)%nat -> get (harmonics c n) k = Ok (INR (S k) * c).
Proof. intros H. unfold get. rewrite harmonics_nth by exact H. reflexivity. Qed.

Lemma wrap_spec time h sh input r name dir s c : shaped s r -> (3 <= List.length s)%nat -> good_rows true (map row_cells (sr_profile r)) -> last (map r_h (sr_profile r)) 0 = 0 ->
  Forall five (sr_profile r) -> c <> 0 -> sr_freq r = harmonics c ((List.length s + 1) / 2) ->
  exists h' sh' x, wrap time (h, sh) input r name dir = ((h', sh'), Ok x) /\ carries h sh h' sh' input r 1000 x /\ named time name dir x.
Proof.
  intros SH L3 G Z F Hc EF. pose proof SH as ((_ & _ & LS) & (La & Lv & Ld & Lm) & (Lg & Lt & Lq) & FA & (Lf & Ltf)).
  assert (H2 : (2 <= (List.length s + 1) / 2)%nat) by (apply Nat.div_le_lower_bound; lia).
  unfold wrap. destruct (gm_new sh (sr_surface r)) as (sh' & m & EG & ES & EN & OS); [lia|]. rewrite EG.
  destruct (vs_new h (sr_profile r) G Z) as (h' & o & EV & ER & EO & OH). rewrite EV. cbn [bind].
  rewrite EF, !harmonics_get by lia. cbn [bind].
  destruct (fs_init (CD1 (sr_tf r)) (Some (INR 2 * c - INR 1 * c)) None) as [sp|e] eqn:EFS.
  2: { exfalso. apply C84_errors in EFS as [[E _]|[(_ & E & _)|(E & _)]]; [discriminate|lia|injection E as E; cbn in E; lra]. }
  cbn [bind]. apply C84_attributes in EFS as (rows & dd & (E1 & E2 & E3 & E4) & _ & _ & _ & E5 & E6 & _).
  injection E1 as E1. assert (Ed : dd = c) by (rewrite <- E1; cbn; lra).
  set (x := mkresults input m o (Some (mkarr (List.length (sr_max_avd r)) (avd_columns (sr_max_avd r)))) (Some (mkarr (List.length (sr_max_gt r)) (gt_columns (sr_max_gt r))))
      (Some sp) None (Some (mkarr (List.length (sr_surface r)) (sr_a r))) (Some (mkarr (List.length (sr_surface r)) (sr_v r))) (Some (mkarr (List.length (sr_surface r)) (sr_d r)))
      (Some (mkarr (List.length (sr_surface r)) (sr_tau r))) (Some (mkarr (List.length (sr_surface r)) (sr_gamma r)))
      (match name with Some n => n | None => "accel_" ++ time end)%string (match dir with Some n => n | None => "./sim_" ++ time end)%string).
  exists h', sh', x. split; [|split].
  - f_equal. apply C63_accepts_iff. exists m, o. split.
    + unfold time_by_layer. constructor; cbn [instance instance_or_none fits a_n a_cols]; auto; try (split; [lia|lia]).
      right. right. cbn [instance fits a_n a_cols List.length]. repeat split; lia.
    + unfold absent. cbn [given x rr_input rr_surface rr_profile rr_tf rr_tf_smooth rr_accel rr_veloc rr_displ rr_stress rr_strain rr_max_avd rr_max_gt rr_name rr_dir].
      repeat (split; [reflexivity|]). split; [intros [N|N]; discriminate|]. split; [intros _; split; reflexivity|]. split; reflexivity.
  - constructor; cbn [x rr_input rr_surface rr_profile rr_tf rr_accel rr_veloc rr_displ rr_stress rr_strain rr_max_avd rr_max_gt]; auto.
    + rewrite ER, map_map. apply map_ext_in. intros q I. rewrite Forall_forall in F. apply convert_cells, F, I.
    + exists sp. split; [reflexivity|]. subst rows. unfold Prop_freqspec.column in E5, E6. rewrite combine_fst in E5 by (rewrite map_length, seq_length; reflexivity). rewrite combine_snd in E6 by (rewrite map_length, seq_length; reflexivity).
      split; [exact E6|]. rewrite E5, EF, Ltf. unfold harmonics. apply map_ext. intros i. rewrite Ed. reflexivity.
    + repeat split.
Qed.
Lemma wrap_two time h sh input r name dir s c : shaped s r -> List.length s = 2%nat -> good_rows true (map row_cells (sr_profile r)) -> last (map r_h (sr_profile r)) 0 = 0 ->
  sr_freq r = harmonics c ((List.length s + 1) / 2) -> exists w', wrap time (h, sh) input r name dir = (w', Err IndexError).
Proof.
  intros ((_ & _ & LS) & _) L2 G Z EF. unfold wrap. destruct (gm_new sh (sr_surface r)) as (sh' & m & EG & _); [lia|]. rewrite EG.
  destruct (vs_new h (sr_profile r) G Z) as (h' & o & EV & _). rewrite EV. rewrite EF, L2. cbn. eauto.
Qed.

Lemma freq_harmonics s (m : nat) dt : (2 <= List.length s)%nat -> m = (if Nat.even (List.length s) then (run_N s + 1) / 2 - 1 else (run_N s + 1) / 2)%nat ->
  firstn m (map (fun i => INR (S i) / (INR (run_N s) * dt)) (seq 0 (run_N s))) = harmonics (1 / (INR (run_N s) * dt)) ((List.length s + 1) / 2).
Proof.
  intros L ->. destruct (run_N_spec s L) as (O & EN & N3).
  assert (Q : ((if Nat.even (List.length s) then (run_N s + 1) / 2 - 1 else (run_N s + 1) / 2) = (List.length s + 1) / 2)%nat).
  { rewrite EN. destruct (Nat.even (List.length s)) eqn:Ev; [|reflexivity]. apply Nat.even_spec in Ev as [j ->].
    replace (S (2 * j) + 1)%nat with ((j + 1) * 2)%nat by lia. rewrite Nat.div_mul by lia. replace (2 * j + 1)%nat with (1 + j * 2)%nat by lia. rewrite Nat.div_add by lia. cbn. lia. }
  rewrite Q. assert (LE : ((List.length s + 1) / 2 <= run_N s)%nat) by (rewrite EN; apply Nat.div_le_upper_bound; [lia|]; destruct Nat.even; lia).
  unfold harmonics. rewrite firstn_map. replace (firstn ((List.length s + 1) / 2) (seq 0 (run_N s))) with (seq 0 ((List.length s + 1) / 2)).
  - apply map_ext. intros i. unfold Rdiv. ring.
  - replace (run_N s) with ((List.length s + 1) / 2 + (run_N s - (List.length s + 1) / 2))%nat by lia. rewrite seq_app, firstn_app, seq_length, Nat.sub_diag, firstn_O, app_nil_r, firstn_all2 by (rewrite seq_length; lia). reflexivity.
Qed.
Lemma rate_nonzero s dt : (2 <= List.length s)%nat -> dt <> 0 -> 1 / (INR (run_N s) * dt) <> 0.
Proof.
  intros L D. destruct (run_N_spec s L) as (_ & _ & N3). assert (0 < INR (run_N s)) by (apply lt_0_INR; lia).
  unfold Rdiv. rewrite Rmult_1_l. apply Rinv_neq_0_compat, Rmult_integral_contrapositive. split; [lra|exact D].
Qed.

(** ** Profiles made of re-discretised rows *)
Lemma vs_rows h rows h' o : Forall (fun r => List.length r = 5%nat) rows ->
  vs_init (h ++ [mktable false 5 rows]) (List.length h) D_1 R_g false 3 = (h', Ok o) ->
  o_rows h' o = map (convert_row D_1 R_g) rows /\ (forall l, (l < List.length h)%nat -> tbl h' l = tbl h l).
Proof.
  intros F E. set (t := mktable false 5 rows) in *. assert (ET : tbl (h ++ [t]) (List.length h) = t) by (unfold tbl; rewrite app_nth2, Nat.sub_diag by lia; reflexivity).
  destruct (vs_init_ok_inv (h ++ [t]) (List.length h) D_1 R_g false 3 h' o) as (V & _ & _ & IP); [rewrite ET; exact F|exact E|].
  destruct (vs_init_spec (h ++ [t]) (List.length h) D_1 R_g false 3) as (v30 & _ & E'); try discriminate; auto; [rewrite app_length; cbn; lia|].
  rewrite E in E'. rewrite ET in E'. injection E' as -> ->. unfold caller_after. rewrite ET. cbn [inplace t_ncol t Nat.eqb andb orb]. split.
  - unfold o_rows, tbl. cbn [o_tbl]. match goal with |- context[nth ?n (?l ++ ?m) ?e] => assert (EN : n = List.length l) by (symmetry; apply set_nth_length); rewrite EN, app_nth2, Nat.sub_diag by lia end. reflexivity.
  - intros l Hl. unfold tbl. rewrite app_nth1 by (rewrite set_nth_length, app_length; lia). rewrite set_nth_other by lia. rewrite app_nth1 by exact Hl. reflexivity.
Qed.
Lemma five_cells q : Forall five q -> Forall (fun r => List.length r = 5%nat) (map row_cells q).
Proof. intros F. rewrite Forall_map. eapply Forall_impl; [|exact F]. intros r (xi & rho & m & E). unfold row_cells. rewrite E. reflexivity. Qed.
Lemma results_profile time input surface o mx mg tf tfs a v d tau gamma name dir x :
  results_init time input surface (Inst o) mx mg tf tfs a v d tau gamma name dir = Ok x -> rr_profile x = o.
Proof. intros H. apply C63_accepts_iff in H as (s & p & W & _ & _ & E & _). destruct W. injection w_profile0 as ->. exact E. Qed.
Lemma gm_kept (sh : sheap) y sh' rm : gm_init (sh ++ [y]) (List.length sh) U_m T_accel = (sh', rm) -> forall l, (l < List.length sh)%nat -> sig_at sh' l = sig_at sh l.
Proof.
  intros E l Hl. destruct (Nat.lt_ge_cases (List.length y) 2) as [H|H].
  - destruct (gm_short sh y H) as (e & E' & _). rewrite E in E'. injection E' as -> _. unfold sig_at. rewrite app_nth1 by exact Hl. reflexivity.
  - destruct (gm_new sh y H) as (sh2 & m & E' & _ & _ & O). rewrite E in E'. injection E' as -> _. apply O, Hl.
Qed.
Lemma wrap_rows time h sh input r name dir h' sh' x : Forall five (sr_profile r) -> wrap time (h, sh) input r name dir = ((h', sh'), Ok x) ->
  o_rows h' (rr_profile x) = map (convert_row D_1 R_g) (map row_cells (sr_profile r)) /\
  (forall l, (l < List.length h)%nat -> tbl h' l = tbl h l) /\ (forall l, (l < List.length sh)%nat -> sig_at sh' l = sig_at sh l).
Proof.
  intros F H. unfold wrap in H. destruct (gm_init _ _ _ _) as [sh1 [m|]] eqn:EG in H; [|discriminate].
  destruct (vs_init _ _ _ _ _ _) as [h1 [o|]] eqn:EV in H; [|discriminate]. cbn [bind] in H. injection H as -> -> H.
  apply bind_ok in H as (f1 & _ & H). apply bind_ok in H as (f0 & _ & H). apply bind_ok in H as (sp & _ & H). apply results_profile in H as ->.
  destruct (vs_rows h _ h' o (five_cells _ F) EV) as [R1 R2]. split; [exact R1|]. split; [exact R2|]. apply (gm_kept _ _ _ _ EG).
Qed.

(** The rows that a row of the input is divided in. *)
Definition pieces (rows : list (list R)) (gs : list (list row)) : Prop :=
  Forall2 (fun y g => g <> [] /\ Forall (fun q => r_vs q = cell 1 y /\ r_rest q = skipn 2 y) g) rows gs.
Lemma strat_pieces t p : valid_table t -> t_ncol t = 5%nat -> stratify (map row_of (t_rows t)) = Ok p -> exists gs, pieces (t_rows t) gs /\ p = concat gs.
Proof.
  intros (f & Ec & init & lst & Er & Fi & Gl) C5 ES. destruct f; [|rewrite C5 in Ec; discriminate]. rewrite Er in *.
  assert (EL : last_res (map row_of (init ++ [lst])) = Ok (row_of lst)) by (rewrite map_app; apply last_res_app).
  assert (FI : Forall (fun r => 0 < r_h r /\ 0 < r_vs r) (map row_of init)).
  { rewrite Forall_map. eapply Forall_impl; [|exact Fi]. intros r G. destruct (good_soil false r G) as [[(V & _) _] H]. auto. }
  assert (PC : forall rows gs, Forall2 subdivides (map row_of rows) gs -> pieces rows gs).
  { intros rows. induction rows as [|y rows IH]; intros gs F2; cbn [map] in F2; inversion F2 as [|? g ? gs' HS F2']; subst; constructor; [|apply IH, F2'].
    destruct HS as (NE & HF & _). split; [exact NE|]. eapply Forall_impl; [|exact HF]. cbn beta. intros q (E1 & E2 & _). split; [exact E1|exact E2]. }
  destruct (Req_dec (cell 0 lst) 0) as [Z|Z].
  - assert (FR : Forall (fun r => 0 < r_h r /\ 0 < r_vs r) (removelast (map row_of (init ++ [lst])))) by (rewrite map_app; cbn [map]; rewrite removelast_last; exact FI).
    destruct (C06_stratify_refines _ _ EL Z FR) as (gs & ES' & F2). rewrite ES in ES'. injection ES' as ->. rewrite map_app in F2; cbn [map] in F2; rewrite removelast_last in F2.
    exists (gs ++ [[mkrow 0 (r_vs (row_of lst)) (r_rest (row_of lst))]]). split; [|rewrite concat_app; reflexivity]. apply Forall2_app; [apply PC, F2|]. constructor; [|constructor]. split; [discriminate|]. constructor; [|constructor]. split; reflexivity.
  - assert (FA : Forall (fun r => 0 < r_h r /\ 0 < r_vs r) (map row_of (init ++ [lst]))).
    { rewrite map_app. apply Forall_app. split; [exact FI|]. constructor; [|constructor]. destruct (good_soil true lst Gl) as [[(V & _) _] H]. split; [|exact V]. change (r_h (row_of lst)) with (cell 0 lst) in *. lra. }
    destruct (C06_stratify_refines_no_halfspace _ _ EL Z FA) as (gs & ES' & F2). rewrite ES in ES'. injection ES' as ->. exists gs. split; [apply PC, F2|reflexivity].
Qed.

(** ** C57: densities *)

(** Row [z] comes from row [y] of the profile: same velocity and material number, the same
    damping if [damp] holds, and [k] times its density. *)
Definition comes_from (k : R) (damp : bool) (y z : list R) : Prop :=
  cell 1 z = cell 1 y /\ (damp = true -> cell 2 z = cell 2 y) /\ cell 3 z = k * cell 3 y /\ cell 4 z = cell 4 y.
Definition made_of (k : R) (damp : bool) (rows out : list (list R)) : Prop :=
  exists gs, Forall2 (fun y g => g <> [] /\ Forall (comes_from k damp y) g) rows gs /\ out = concat gs.

Lemma made_of_map k damp rows gs (f : row -> list R) :
  (forall y q, In y rows -> r_vs q = cell 1 y -> r_rest q = skipn 2 y -> comes_from k damp y (f q)) -> pieces rows gs -> made_of k damp rows (map f (concat gs)).
Proof.
  intros Hf P. exists (map (map f) gs). split; [|rewrite concat_map; reflexivity].
  unfold pieces in P. induction P as [|y g rows gs [NE F] P IH]; cbn [map]; constructor; [|apply IH; intros; apply Hf; auto; right; auto].
  split; [destruct g; [congruence|discriminate]|]. rewrite Forall_map. eapply Forall_impl; [|exact F]. cbn beta. intros q [E1 E2]. apply Hf; auto. left. reflexivity.
Qed.
Lemma row_five t y : valid_table t -> t_ncol t = 5%nat -> In y (t_rows t) -> exists a b c d e, y = [a; b; c; d; e].
Proof.
  intros (f & Ec & init & lst & Er & Fi & Gl) C5 I. destruct f; [|rewrite C5 in Ec; discriminate]. rewrite Er in I. apply in_app_or in I as [I|[<-|[]]].
  - rewrite Forall_forall in Fi. destruct (Fi y I) as (a & b & tl & -> & _ & _ & c & d & m & -> & _). eauto 10.
  - destruct Gl as (a & b & tl & -> & _ & _ & c & d & m & -> & _). eauto 10.
Qed.

Theorem C57_linear : forall time h sh p input b deconv name dir h' sh' x,
  let t := tbl h (o_tbl p) in table_wf t -> (o_tbl p < List.length h)%nat ->
  linear_run time (h, sh) p input b true deconv name dir = ((h', sh'), Ok (Some x)) ->
  made_of 1000 true (o_rows h p) (o_rows h' (rr_profile x)) /\ o_rows h' p = o_rows h p.
Proof.
  intros time h sh p input b deconv name dir h' sh' x t Wf Hp H. unfold linear_run in H. fold t in H. set (s := sig_at sh (m_accel input)) in *.
  destruct (linear t s b) as [r|e] eqn:E; [|discriminate].
  assert (AC : acceptable t s b) by (apply C56_accepts_iff; eauto). destruct (linear_inv t s b r Wf E) as (dt & q & ED & ES & -> & _). destruct AC as (V & C5 & _).
  pose proof (strat_five t q V C5 ES) as F. destruct (wrap time (h, sh) input (outcome s q dt b) name dir) as [w' y] eqn:EW. destruct y as [y|]; [|discriminate]. cbn [bind] in H. injection H as -> ->.
  destruct (wrap_rows time h sh input (outcome s q dt b) name dir h' sh' x F EW) as (R1 & R2 & _). change (sr_profile (outcome s q dt b)) with q in R1.
  split; [|unfold o_rows; rewrite R2 by exact Hp; reflexivity]. rewrite R1. destruct (strat_pieces t q V C5 ES) as (gs & P & ->). rewrite map_map. apply made_of_map; [|exact P].
  intros y g I E1 E2. destruct (row_five t y V C5 I) as (a & b0 & c & d & e & ->). unfold row_cells. rewrite E2. cbn [skipn]. rewrite convert_row_5. rewrite E1. unfold comes_from, cell. cbn. repeat split; auto; lra.
Qed.

(** Equivalent linear: the damping of the soil layers is that of the last iteration. *)
Theorem C57_equivalent : forall time h sh p input cm b verbose name dir h' sh' x,
  let t := tbl h (o_tbl p) in table_wf t -> cmat_wf cm -> (o_tbl p < List.length h)%nat ->
  equiv_run time (h, sh) p input cm b verbose name dir = ((h', sh'), Ok x) ->
  made_of 1000 false (o_rows h p) (o_rows h' (rr_profile x)) /\ o_rows h' p = o_rows h p.
Proof.
  intros time h sh p input cm b verbose name dir h' sh' x t Wf Wc Hp H. unfold equiv_run in H. fold t in H. set (s := sig_at sh (m_accel input)) in *.
  destruct (equiv_linear t s cm b _ _ _ _) as [r|e] eqn:E; [|discriminate].
  assert (AC : eq_acceptable t s cm b 10) by (apply (C55_accepts_iff t s cm b (75 / 1000) (65 / 100) 10 verbose Wf Wc); eauto).
  destruct (eq_run t s cm b (75 / 1000) (65 / 100) 10 verbose Wc AC) as (dt & q & cs & m & ED & ES & RN & P2 & ECS & Hm & EQ & _). rewrite E in EQ. injection EQ as ->.
  destruct AC as ((V & C5 & L & init & lst & Er & Z & HB) & _ & _ & Hn & _). set (st := traj q cs b dt (run_A s) (65 / 100) m (initial q)) in *.
  assert (TL : List.length st = List.length q) by (apply (tr_length t s cm b (65 / 100) q cs dt C5 RN P2 ECS Hn)).
  pose proof (strat_five t q V C5 ES) as F. match type of H with wrap _ _ _ ?o _ _ = _ => set (out := o) in * end.
  assert (EP : sr_profile out = set_damping q st) by reflexivity.
  assert (SD : forall (l : list row) (ms : moduli), List.length ms = List.length l -> Forall five l -> Forall five (set_damping l ms)).
  { intros l. induction l as [|y l IH]; intros [|z ms] LL FF; try discriminate; [constructor|]. inversion FF as [|? ? (xi & rho & mm & E1) F']; subst. unfold set_damping. cbn [combine map fst snd]. constructor; [|apply IH; [cbn in LL; lia|exact F']].
    exists (snd z), rho, mm. cbn [r_rest]. rewrite E1. reflexivity. }
  destruct (wrap_rows time h sh input out name dir h' sh' x) as (R1 & R2 & _); [rewrite EP; apply SD; assumption|exact H|].
  split; [|unfold o_rows; rewrite R2 by exact Hp; reflexivity]. rewrite R1, EP. destruct (strat_pieces t q V C5 ES) as (gs & P & ->). clearbody st. clear - P TL V C5. unfold o_rows. fold t.
  assert (Q : forall rows, incl rows (t_rows t) -> forall gs st, pieces rows gs -> List.length st = List.length (concat gs) -> made_of 1000 false rows (map (convert_row D_1 R_g) (map row_cells (set_damping (concat gs) st)))).
  { clear - V C5. induction rows as [|y rows IH]; intros HI gs st P TL; inversion P as [|? g ? gs' [NE FG] P']; subst.
    - exists []. split; [constructor|]. reflexivity.
    - cbn [concat] in *. rewrite app_length in TL.
      assert (EC : combine (g ++ concat gs') st = combine g (firstn (List.length g) st) ++ combine (concat gs') (skipn (List.length g) st)).
      { rewrite <- (firstn_skipn (List.length g) st) at 1. assert (LF : List.length (firstn (List.length g) st) = List.length g) by (rewrite firstn_length; lia). revert LF. generalize (firstn (List.length g) st), (skipn (List.length g) st). clear.
        induction g as [|u g IH]; intros [|v l] l0 E; cbn in E; try discriminate; [reflexivity|]. cbn [app combine]. f_equal. apply IH. lia. }
      destruct (IH (fun z I => HI z (or_intror I)) gs' (skipn (List.length g) st) P') as (gs2 & F2 & E2); [rewrite skipn_length; lia|].
      set (one := map (convert_row D_1 R_g) (map row_cells (set_damping g (firstn (List.length g) st)))).
      exists (one :: gs2). split.
      + constructor; [|exact F2]. split.
        * unfold one, set_damping. rewrite !map_map. destruct g as [|u g]; [congruence|]. destruct st as [|v st]; [cbn in TL; lia|]. discriminate.
        * unfold one, set_damping. rewrite !map_map, Forall_map. apply Forall_forall. intros [u v] I. apply in_combine_l in I. rewrite Forall_forall in FG. destruct (FG u I) as [E3 E4].
          destruct (row_five t y V C5 (HI y (or_introl eq_refl))) as (a & b0 & c & d & e & ->). unfold row_cells. cbn [fst snd r_h r_vs r_rest]. rewrite E4. cbn [skipn tl]. rewrite convert_row_5, E3. unfold comes_from, cell. cbn. repeat split; try discriminate; lra.
      + cbn [concat]. rewrite <- E2. unfold one, set_damping. rewrite EC, !map_app. reflexivity. }
  apply Q; [apply incl_refl|exact P|exact TL].
Qed.

(** Nonlinear: the profile is in the unit that is claimed for it. *)
Theorem C57_nonlinear : forall time h sh p q input k tf tfs name dir h' sh' x,
  let t := tbl h (o_tbl p) in valid_table t -> t_ncol t = 5%nat -> (o_tbl p < List.length h)%nat ->
  kernel_profile h p = Ok q -> nonlinear_results time (h, sh) input q k tf tfs name dir = ((h', sh'), Ok x) ->
  made_of (1 / 1000) true (o_rows h p) (map row_cells q) /\ made_of 1 true (o_rows h p) (o_rows h' (rr_profile x)) /\ o_rows h' p = o_rows h p.
Proof.
  intros time h sh p q input k tf tfs name dir h' sh' x t V C5 Hp EK H. unfold kernel_profile in EK. apply bind_ok in EK as (r & ES & EK). injection EK as <-.
  change (o_rows h p) with (t_rows t) in *. destruct (strat_pieces t r V C5 ES) as (gs & P & ->).
  assert (F : Forall five (map divide_density (concat gs))).
  { rewrite Forall_map. eapply Forall_impl; [|exact (strat_five t _ V C5 ES)]. intros u (xi & rho & m & E). exists xi, (rho / 1000), m. unfold divide_density. rewrite E. reflexivity. }
  split.
  { rewrite map_map. apply made_of_map; [|exact P]. intros y g I E1 E2. destruct (row_five t y V C5 I) as (a & b0 & c & d & e & ->). unfold row_cells, divide_density. cbn [r_h r_vs r_rest]. rewrite E2. cbn [skipn]. rewrite E1. unfold comes_from, cell. cbn. repeat split; auto; lra. }
  unfold nonlinear_results in H. destruct (let! avd := _ in _) as [[[avd gt] y]|e]; [|discriminate].
  destruct (gm_init _ _ _ _) as [sh1 [m|]] eqn:EG in H; [|discriminate]. destruct (vs_init _ _ _ _ _ _) as [h1 [o|]] eqn:EV in H; [|discriminate]. cbn [bind] in H. injection H as -> -> H.
  apply results_profile in H as ->. destruct (vs_rows h _ h' o (five_cells _ F) EV) as [R1 R2]. split; [|unfold o_rows; rewrite R2 by exact Hp; reflexivity].
  rewrite R1, !map_map. apply made_of_map; [|exact P]. intros z g I E1 E2. destruct (row_five t z V C5 I) as (a & b0 & c & d & e & ->). unfold row_cells, divide_density. cbn [r_h r_vs r_rest]. rewrite E2. cbn [skipn]. rewrite E1, convert_row_5. unfold comes_from, cell. cbn. repeat split; auto; lra.
Qed.

(** ** Instances *)
(** Objects of one soil layer and two samples, with fitting arrays, and the same with a
    stress array of one column too many. *)
Example C63_instance : forall input surface profile, m_npts surface = 2%nat -> o_nlayer profile = 1%nat ->
  (exists x, results_init "t" (Inst input) (Inst surface) (Inst profile) PyNone PyNone PyNone PyNone (Inst (mkarr 2 [[0; 1]; [1; 2]])) PyNone PyNone (Inst (mkarr 2 [[0; 1]])) PyNone None (Some "d") = Ok x /\ rr_dir x = "d" /\ rr_name x = "accel_t") /\
  results_init "t" (Inst input) (Inst surface) (Inst profile) PyNone PyNone PyNone PyNone (Inst (mkarr 2 [[0; 1]; [1; 2]])) PyNone PyNone (Inst (mkarr 2 [[0; 1]; [1; 2]])) PyNone None (Some "d") = Err AssertionError.
Proof. intros input surface profile E1 E2. unfold results_init. cbn [required optional bind of_shape a_n a_cols List.length]. rewrite E1, E2. cbn. split; [eexists; repeat split|reflexivity]. Qed.
