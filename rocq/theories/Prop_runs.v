(** C86, C87, C88: what the simulation classes accept and return. *)
From Coq Require Import Reals List Bool ZArith Lia Lra String.
From Coquelicot Require Import Complex.
From Coq Require Import List.
From Verif Require Import Base M_generic P_generic M_profile P_profile Prop_profile M_vs_profile P_vs_profile M_motion P_motion M_interp M_dft M_signal M_linear P_linear Prop_linear M_simlin P_simlin Prop_simlin M_eqlin P_eqlin Prop_eqlin M_amplify P_amplify Prop_amplify Prop_siteresp M_freqspec Prop_freqspec M_results Prop_results Prop_eqlim.
Import ListNotations.
Open Scope string_scope.
Open Scope list_scope.
Open Scope R_scope.

(** ** Linear simulation, every layer *)
Lemma linear_run_cases time h sh p input b deconv name dir r :
  let t := tbl h (o_tbl p) in let s := sig_at sh (m_accel input) in
  table_wf t -> first_step s <> Ok 0 -> linear t s b = Ok r ->
  ((3 <= List.length s)%nat -> exists h' sh' x, linear_run time (h, sh) p input b true deconv name dir = ((h', sh'), Ok (Some x)) /\
     carries h sh h' sh' input r 1000 x /\ named time name dir x) /\
  ((List.length s < 3)%nat -> List.length s = 2%nat /\ exists w', linear_run time (h, sh) p input b true deconv name dir = (w', Err IndexError)).
Proof.
  intros t s Wf Hd E. unfold linear_run. fold t s. rewrite E.
  assert (AC : acceptable t s b) by (apply C56_accepts_iff; eauto).
  pose proof (C56_shapes t s b r Wf E) as SH. destruct (linear_inv t s b r Wf E) as (dt & q & ED & ES & -> & L & _).
  destruct AC as (V & C5 & _ & init & lst & Er & Z & HB). destruct (strat_good t q init lst V C5 Er Z ES) as (G & Zq & _). pose proof (strat_five t q V C5 ES) as F.
  assert (EF : sr_freq (outcome s q dt b) = harmonics (1 / (INR (run_N s) * dt)) ((List.length s + 1) / 2)) by (apply freq_harmonics; [exact L|reflexivity]).
  split; intros H3.
  - assert (Dn : dt <> 0) by (intros ->; auto).
    destruct (wrap_spec time h sh input (outcome s q dt b) name dir s (1 / (INR (run_N s) * dt)) SH H3 G Zq F (rate_nonzero s dt L Dn) EF) as (h' & sh' & x & EW & CA & NM).
    exists h', sh', x. rewrite EW. auto.
  - split; [lia|]. destruct (wrap_two time h sh input (outcome s q dt b) name dir s (1 / (INR (run_N s) * dt)) SH ltac:(lia) G Zq EF) as (w' & EW). rewrite EW. cbn. eauto.
Qed.

(** The run returns an object exactly for the arguments the simulation accepts, with three
    samples or more; it then carries the simulation, and everything else in memory is as it was. *)
Theorem C86_linear : forall time h sh p input b deconv name dir,
  let t := tbl h (o_tbl p) in let s := sig_at sh (m_accel input) in
  table_wf t -> first_step s <> Ok 0 ->
  ((exists w' x, linear_run time (h, sh) p input b true deconv name dir = (w', Ok x)) <-> acceptable t s b /\ (3 <= List.length s)%nat) /\
  (forall h' sh' x, linear_run time (h, sh) p input b true deconv name dir = ((h', sh'), Ok x) ->
     exists r y, linear t s b = Ok r /\ x = Some y /\ carries h sh h' sh' input r 1000 y /\ named time name dir y) /\
  (forall w' e, linear_run time (h, sh) p input b true deconv name dir = (w', Err e) -> linear t s b = Err e \/ (List.length s = 2%nat /\ e = IndexError)).
Proof.
  intros time h sh p input b deconv name dir t s Wf Hd.
  destruct (linear t s b) as [r|e0] eqn:E.
  - destruct (linear_run_cases time h sh p input b deconv name dir r Wf Hd E) as [H3 H2]. fold t s in H3, H2.
    assert (AC : acceptable t s b) by (apply C56_accepts_iff; eauto).
    destruct (Nat.lt_ge_cases (List.length s) 3) as [L|L].
    + destruct (H2 L) as (L2 & w' & EW). rewrite EW. split; [split; [intros (? & ? & ?); discriminate|lia]|]. split; [discriminate|]. intros w e [= <- <-]. auto.
    + destruct (H3 L) as (h' & sh' & x & EW & CA & NM). rewrite EW. split; [split; [auto|intros _; eauto]|]. split; [|discriminate].
      intros h2 sh2 x2 [= <- <- <-]. exists r, x. auto.
  - unfold linear_run. fold t s. rewrite E. split; [|split; [discriminate|intros w' e [= <- <-]; auto]].
    split; [intros (? & ? & ?); discriminate|]. intros [AC _]. apply (C56_accepts_iff t s b Wf) in AC as (r & E'). congruence.
Qed.

(** ** Equivalent linear simulation *)
Lemma eq_shaped s p st st' dt b : (2 <= List.length s)%nat -> (1 <= List.length p)%nat -> List.length st' = List.length p -> shaped s (eq_outcome s p st st' dt b).
Proof.
  intros L NP1 LS. destruct (run_N_spec s L) as (O & EN & N3). cbv beta delta [shaped]. intros n T.
  assert (En : n = List.length p) by (unfold n; cbn [sr_profile eq_outcome]; unfold set_damping; rewrite map_length, combine_length; lia).
  assert (T2 : (2 <= T)%nat) by exact L. clearbody n. subst n. set (n := List.length p) in *.
  cbn [sr_a sr_v sr_d sr_gamma sr_tau sr_freq sr_tf sr_surface sr_max_avd sr_max_gt eq_outcome] in *. fold n.
  assert (NP : (0 < n)%nat) by (unfold n; lia).
  assert (L0 : List.length (nth 0 (map (fun k => trim (Nat.even (List.length s)) (acc_of (run_N s) dt (elays p st) b (run_A s) k)) (seq 0 n)) []) = T).
  { rewrite nth_seq_map by exact NP. apply trim_length; [exact L|]. apply acc_length, L. }
  split; [|split; [|split; [|split]]].
  - split; [|split]; [|reflexivity|].
    + unfold times at 1. assert (EF : forall (l : list R) (l' : list R), List.length l = List.length l' -> map fst (combine l l') = l).
      { induction l as [|x l IH]; intros [|y l'] H; cbn in *; try lia; try reflexivity. f_equal. apply IH. lia. }
      apply EF. rewrite times_length. symmetry. exact L0.
    + rewrite combine_length, times_length. rewrite L0. apply Nat.min_id.
  - rewrite !combine_length, z_top_length, !map_length, !seq_length. fold n. repeat split; lia.
  - rewrite !combine_length, removelast_length, z_mid_length, !map_length, !seq_length. fold n. repeat split; lia.
  - repeat (apply Forall_app; split); apply Forall_map; apply Forall_forall; intros k _; apply trim_length; try exact L.
    + apply acc_length, L. + rewrite integrate_length. apply acc_length, L. + apply dis_length, L. + apply gam_length, L.
    + rewrite stress_length; [apply gam_length, L|]. rewrite gam_length by exact L. exact O.
  - rewrite map_length. pose proof (outcome_freq_length s p dt b L) as [F1 F2]. cbn [sr_freq sr_tf outcome] in F1, F2. rewrite map_length in F2.
    split; [exact F1|]. rewrite firstn_length, H_col_length in F2 |- * by exact O. exact F2.
Qed.

Lemma damped_good q st : good_rows true (map row_cells q) -> Forall soil q -> good_state q st -> last (map r_h q) 0 = 0 ->
  good_rows true (map row_cells (set_damping q st)) /\ last (map r_h (set_damping q st)) 0 = 0.
Proof.
  intros G So [L GS] Z. rewrite set_damping_h by exact L. split; [|exact Z].
  assert (EL : forall k, (k < List.length q)%nat -> nth k (map row_cells (set_damping q st)) [] = set_nth 2 (snd (nth k st (0, 0))) (nth k (map row_cells q) []) \/ List.length (nth k (map row_cells q) []) <> 5%nat).
  { intros k Hk. unfold set_damping. rewrite map_map.
    rewrite (nth_indep _ [] ((fun q0 => row_cells (mkrow (r_h (fst q0)) (r_vs (fst q0)) (snd (snd q0) :: tl (r_rest (fst q0))))) (row0, (0, 0)))) by (rewrite map_length, combine_length; lia).
    rewrite (map_nth (fun q0 => row_cells (mkrow (r_h (fst q0)) (r_vs (fst q0)) (snd (snd q0) :: tl (r_rest (fst q0))))) (combine q st) (row0, (0, 0)) k), combine_nth by lia.
    rewrite (nth_indep _ [] (row_cells row0)) by (rewrite map_length; lia). rewrite map_nth. cbn [fst snd]. destruct (nth k q row0) as [hh vv [|xi [|rho [|m [|]]]]]; cbn; auto. }
  destruct G as (init & lst & E & Fi & Gl). assert (LI : List.length q = S (List.length init)) by (apply (f_equal (@List.length _)) in E; rewrite map_length, app_length in E; cbn in E; lia).
  assert (LD : List.length (map row_cells (set_damping q st)) = List.length q) by (unfold set_damping; rewrite !map_length, combine_length; lia).
  destruct (exists_last (l := map row_cells (set_damping q st))) as (init' & lst' & E'); [intros N; rewrite N in LD; cbn in LD; lia|]. rewrite E' in LD. rewrite app_length in LD. cbn [List.length] in LD.
  assert (POS : forall k, (k < List.length q)%nat -> 0 < snd (nth k st (0, 0))).
  { intros k Hk. destruct (GS k Hk) as [_ D]. destruct (soil_nth q k So Hk) as (_ & _ & X & _). lra. }
  assert (GR : forall bl r x, good_row true bl r -> 0 < x -> good_row true bl (set_nth 2 x r) /\ List.length r = 5%nat).
  { intros bl r x (a & c & tl & -> & H1 & H2 & xi & rho & m & -> & H3 & H4 & H5) Hx. split; [|reflexivity]. exists a, c. eexists. split; [reflexivity|]. split; [exact H1|]. split; [exact H2|]. exists x, rho, m. auto. }
  exists init', lst'. split; [exact E'|]. split.
  - apply Forall_forall. intros r I. destruct (In_nth _ _ [] I) as (k & Hk & <-). rewrite <- (app_nth1 init' [lst']) by exact Hk. rewrite <- E'.
    rewrite Forall_forall in Fi. assert (Hi : In (nth k init []) init) by (apply nth_In; lia). destruct (GR false _ (snd (nth k st (0, 0))) (Fi _ Hi) (POS k ltac:(lia))) as [G1 G2].
    assert (EK : nth k (map row_cells q) [] = nth k init []) by (rewrite E, app_nth1 by lia; reflexivity).
    destruct (EL k ltac:(lia)) as [-> |N]; rewrite EK in *; [exact G1|contradiction].
  - assert (EQ : lst' = nth (List.length init') (map row_cells (set_damping q st)) []) by (rewrite E', app_nth2, Nat.sub_diag by lia; reflexivity). rewrite EQ.
    destruct (GR true _ (snd (nth (List.length init') st (0, 0))) Gl (POS (List.length init') ltac:(lia))) as [G1 G2].
    assert (EK : nth (List.length init') (map row_cells q) [] = lst) by (rewrite E, app_nth2 by lia; replace (List.length init' - List.length init)%nat with 0%nat by lia; reflexivity).
    destruct (EL (List.length init') ltac:(lia)) as [-> |N]; rewrite EK in *; [exact G1|contradiction].
Qed.

(** For curves with moduli in (0, 1] and dampings not below the first one, the run returns an
    object exactly for the arguments the simulation accepts, with three samples or more. *)
Theorem C86_equivalent : forall time h sh p input cm b verbose name dir,
  let t := tbl h (o_tbl p) in let s := sig_at sh (m_accel input) in
  let sim := equiv_linear t s cm b (75 / 1000) (65 / 100) 10 verbose in
  table_wf t -> cmat_wf cm -> good_curves t cm -> first_step s <> Ok 0 ->
  ((exists w' x, equiv_run time (h, sh) p input cm b verbose name dir = (w', Ok x)) <-> eq_acceptable t s cm b 10 /\ (3 <= List.length s)%nat) /\
  (forall h' sh' x, equiv_run time (h, sh) p input cm b verbose name dir = ((h', sh'), Ok x) ->
     exists r, sim = Ok r /\ carries h sh h' sh' input r 1000 x /\ named time name dir x) /\
  (forall w' e, equiv_run time (h, sh) p input cm b verbose name dir = (w', Err e) -> sim = Err e \/ (List.length s = 2%nat /\ e = IndexError)).
Proof.
  intros time h sh p input cm b verbose name dir t s sim Wf Wc GC Hd. unfold equiv_run. fold t s. fold sim.
  destruct sim as [r|e0] eqn:E; unfold sim in E.
  - assert (AC : eq_acceptable t s cm b 10) by (apply (C55_accepts_iff t s cm b (75 / 1000) (65 / 100) 10 verbose Wf Wc); eauto).
    destruct (eq_run t s cm b (75 / 1000) (65 / 100) 10 verbose Wc AC) as (dt & q & cs & m & ED & ES & RN & P2 & ECS & Hm & EQ & _). rewrite E in EQ. injection EQ as ->.
    pose proof AC as ((V & C5 & L & init & lst & Er & Z & HB) & _ & _ & Hn & HC). unfold good_curves in GC. rewrite Er, removelast_last in HC, GC.
    pose proof (tr_good t s cm b (65 / 100) q cs dt Wc V C5 init lst Er Z ES RN P2 ECS Hn HC GC m) as TG. set (st := traj q cs b dt (run_A s) (65 / 100) m (initial q)) in *.
    set (st0 := traj q cs b dt (run_A s) (65 / 100) (m - 1) (initial q)) in *.
    pose proof RN as (_ & _ & So & _ & NP). destruct (strat_good t q init lst V C5 Er Z ES) as (G & Zq & _). pose proof (strat_five t q V C5 ES) as F.
    destruct (damped_good q st G So TG Zq) as [G' Z']. pose proof TG as [TL _].
    assert (SH : shaped s (eq_outcome s q st0 st dt b)) by (apply eq_shaped; assumption).
    assert (EF : sr_freq (eq_outcome s q st0 st dt b) = harmonics (1 / (INR (run_N s) * dt)) ((List.length s + 1) / 2)) by (apply freq_harmonics; [exact L|reflexivity]).
    assert (F' : Forall five (sr_profile (eq_outcome s q st0 st dt b))).
    { change (Forall five (set_damping q st)). clear - F TL. clearbody st. revert st TL. induction F as [|y l (xi & rho & mm & E1) F IH]; intros [|z ms] LL; try discriminate; [constructor|]. unfold set_damping. cbn [combine map fst snd]. constructor; [|apply IH; cbn in LL; lia].
      exists (snd z), rho, mm. cbn [r_rest]. rewrite E1. reflexivity. }
    destruct (Nat.lt_ge_cases (List.length s) 3) as [L3|L3].
    + destruct (wrap_two time h sh input _ name dir s _ SH ltac:(lia) G' Z' EF) as (w' & EW). rewrite EW.
      split; [split; [intros (? & ? & ?); discriminate|lia]|]. split; [discriminate|]. intros w e [= <- <-]. right. split; [lia|reflexivity].
    + assert (Dn : dt <> 0) by (intros ->; auto).
      destruct (wrap_spec time h sh input _ name dir s _ SH L3 G' Z' F' (rate_nonzero s dt L Dn) EF) as (h' & sh' & x & EW & CA & NM). rewrite EW.
      split; [split; [auto|intros _; eauto]|]. split; [|discriminate]. intros h2 sh2 x2 [= <- <- <-]. eauto.
  - split; [|split; [discriminate|intros w' e [= <- <-]; auto]].
    split; [intros (? & ? & ?); discriminate|]. intros [AC _]. apply (C55_accepts_iff t s cm b (75 / 1000) (65 / 100) 10 verbose Wf Wc) in AC as (r & E'). congruence.
Qed.

(** ** Linear simulation, surface only *)

(** The object has the caller's own profile and no histories; the name and the directory asked
    for are dropped, so that runs within the same second share a directory. *)
Theorem C86_surface_only : forall time h sh p input b deconv name dir,
  let t := tbl h (o_tbl p) in let s := sig_at sh (m_accel input) in
  table_wf t -> (2 <= List.length s)%nat -> 0 < step_of s ->
  ((exists w' x, linear_run time (h, sh) p input b false deconv name dir = (w', Ok x)) <-> valid_table t) /\
  (forall h' sh' x, linear_run time (h, sh) p input b false deconv name dir = ((h', sh'), Ok x) ->
     h' = h /\ (forall l, (l < List.length sh)%nat -> sig_at sh' l = sig_at sh l) /\
     exists y f z, linear_site_resp t s (Some (match b with Elastic => true | Rigid => false end)) deconv = Ok (y, (f, z)) /\
     match y with
     | None => x = None
     | Some y => exists o sp, x = Some o /\ rr_input o = input /\ rr_profile o = p /\ sig_at sh' (m_accel (rr_surface o)) = y /\
         rr_tf o = Some sp /\ fs_freq sp = f /\ fs_spec sp = z /\ rr_tf_smooth o = None /\
         rr_accel o = None /\ rr_veloc o = None /\ rr_displ o = None /\ rr_stress o = None /\ rr_strain o = None /\ rr_max_avd o = None /\ rr_max_gt o = None /\
         rr_name o = ("accel_" ++ time)%string /\ rr_dir o = ("./sim_" ++ time)%string
     end).
Proof.
  intros time h sh p input b deconv name dir t s Wf L HS. unfold linear_run. fold t s.
  set (e := match b with Elastic => true | Rigid => false end). destruct (C26_site_response t s e deconv Wf L HS) as [AC RES].
  destruct (linear_site_resp t s (Some e) deconv) as [[y [f z]]|er] eqn:E.
  2: { split; [split; [intros (? & ? & ?); discriminate|intros V; apply AC in V as [o ?]; discriminate]|]. discriminate. }
  assert (V : valid_table t) by (apply AC; eauto). destruct (RES y f z eq_refl) as (Lf & Lz & GF & _ & EA). cbv zeta in *.
  destruct (half_len_bounds _ L) as [Hh _]. destruct y as [y|].
  2: { split; [split; [auto|eauto]|]. intros h' sh' x [= <- <- <-]. split; [reflexivity|]. split; [auto|]. exists None, f, z. auto. }
  destruct (C26_site_response_mean t s e deconv y (f, z) Wf L HS E) as [Ty _]. assert (Ly : List.length y = List.length s) by (apply (f_equal (@List.length R)) in Ty; unfold times in Ty; rewrite !map_length in Ty; exact Ty).
  assert (EFf : f = harmonics (df_of s * (105 / 100)) (half_len (List.length s))).
  { apply nth_ext with 0 0; [unfold harmonics; rewrite map_length, seq_length; exact Lf|]. intros k Hk. rewrite Lf in Hk. rewrite GF by exact Hk. symmetry. apply nth_error_nth with (d := 0). apply harmonics_nth, Hk. }
  assert (G0 : get f 0 = Ok (INR 1 * (df_of s * (105 / 100)))) by (rewrite EFf; apply harmonics_get; lia).
  assert (G1 : get f 1 = Ok (INR 2 * (df_of s * (105 / 100)))) by (rewrite EFf; apply harmonics_get; lia). rewrite G0, G1. cbn [bind]. destruct (df_pos s L HS) as [D _].
  match goal with |- context[fs_init (CD1 z) (Some ?d) None] => destruct (fs_init (CD1 z) (Some d) None) as [sp|er] eqn:EFS end.
  2: { exfalso. apply C84_errors in EFS as [[E1 _]|[(_ & E1 & _)|(E1 & _)]]; [discriminate|lia|injection E1 as E1; cbn in E1; lra]. }
  destruct (gm_new sh y) as (sh' & m & EG & ESs & EN & OS); [lia|]. rewrite EG. cbn [bind].
  apply C84_attributes in EFS as (rows & dd & (E1 & E2 & E3 & E4) & _ & _ & _ & E5 & E6 & _). injection E1 as E1.
  assert (Ed : dd = df_of s * (105 / 100)) by (rewrite <- E1; cbn; lra).
  set (o := mkresults input m p None None (Some sp) None None None None None None ("accel_" ++ time)%string ("./sim_" ++ time)%string).
  assert (ER : results_init time (Inst input) (Inst m) (Inst p) PyNone PyNone (Inst sp) PyNone PyNone PyNone PyNone PyNone PyNone None None = Ok o) by reflexivity.
  rewrite ER. cbn [bind]. split; [split; [auto|eauto]|]. intros h' sh2 x [= <- <- <-]. split; [reflexivity|]. split; [exact OS|]. exists (Some y), f, z. split; [reflexivity|].
  exists o, sp. cbn [o rr_input rr_surface rr_profile rr_tf rr_tf_smooth rr_accel rr_veloc rr_displ rr_stress rr_strain rr_max_avd rr_max_gt rr_name rr_dir].
  do 3 (split; [reflexivity|]). split; [exact ESs|]. split; [reflexivity|]. subst rows. unfold Prop_freqspec.column in E5, E6. rewrite combine_fst in E5 by (rewrite map_length, seq_length; reflexivity). rewrite combine_snd in E6 by (rewrite map_length, seq_length; reflexivity).
  split; [rewrite E5, EFf, Lz, Ed; reflexivity|]. split; [exact E6|]. repeat (split; [reflexivity|]). reflexivity.
Qed.
Theorem C86_same_directory : forall time w p input b deconv name1 dir1 name2 dir2,
  linear_run time w p input b false deconv name1 dir1 = linear_run time w p input b false deconv name2 dir2.
Proof. intros time [h sh] *. reflexivity. Qed.

(** ** C87: nonlinear simulation *)
(** What the kernel writes for [T] samples and [n] soil layers. *)
Definition kernel_wrote (k : kernel_files) (T n : nat) : Prop :=
  let file f c := a_n f = T /\ List.length (a_cols f) = c /\ Forall (fun x => List.length x = T) (a_cols f) in
  List.length (kf_zn k) = (n + 1)%nat /\ List.length (kf_zl k) = n /\
  file (kf_a k) (n + 1)%nat /\ file (kf_v k) (n + 1)%nat /\ file (kf_d k) (n + 1)%nat /\ file (kf_gamma k) n /\ file (kf_tau k) n.

Lemma divide_good b r : good_row true b (row_cells r) -> good_row true b (row_cells (divide_density r)).
Proof.
  intros (a & c & tl & E & H1 & H2 & xi & rho & m & -> & H3 & H4 & H5). unfold row_cells in E. injection E as <- <- E. unfold row_cells, divide_density. cbn [r_h r_vs r_rest]. rewrite E.
  exists (r_h r), (r_vs r). eexists. split; [reflexivity|]. split; [exact H1|]. split; [exact H2|]. exists xi, (rho / 1000), m. repeat split; auto; lra.
Qed.
Lemma kernel_good h p q init lst : let t := tbl h (o_tbl p) in valid_table t -> t_ncol t = 5%nat -> t_rows t = init ++ [lst] -> cell 0 lst = 0 -> kernel_profile h p = Ok q ->
  good_rows true (map row_cells q) /\ last (map r_h q) 0 = 0 /\ q <> [].
Proof.
  intros t V C5 Er Z E. unfold kernel_profile in E. apply bind_ok in E as (r & ES & E). injection E as <-. change (o_rows h p) with (t_rows t) in ES.
  destruct (strat_good t r init lst V C5 Er Z ES) as ((i & l & E & Fi & Gl) & Zr & NE). split; [|split].
  - destruct (exists_last NE) as (ri & rl & ->). rewrite map_app in E. cbn [map] in E. apply app_inj_tail in E as [<- <-].
    exists (map row_cells (map divide_density ri)), (row_cells (divide_density rl)). split; [rewrite !map_app; reflexivity|]. split; [|apply divide_good, Gl].
    rewrite !Forall_map in *. eapply Forall_impl; [|exact Fi]. intros x. apply divide_good.
  - rewrite map_map. exact Zr.
  - destruct r; [congruence|discriminate].
Qed.

Theorem C87_nonlinear : forall time h sh p q input k tf tfs name dir init lst n,
  let t := tbl h (o_tbl p) in let s := sig_at sh (m_accel input) in
  valid_table t -> t_ncol t = 5%nat -> t_rows t = init ++ [lst] -> cell 0 lst = 0 -> (2 <= List.length s)%nat ->
  kernel_profile h p = Ok q -> List.length q = S n -> (1 <= n)%nat -> kernel_wrote k (List.length s) n ->
  ((2 <= n)%nat -> exists h' sh' x, nonlinear_results time (h, sh) input q k tf tfs name dir = ((h', sh'), Ok x) /\
     rr_input x = input /\ sig_at sh' (m_accel (rr_surface x)) = combine (times s) (nth 0 (a_cols (kf_a k)) []) /\
     rr_accel x = Some (kf_a k) /\ rr_veloc x = Some (kf_v k) /\ rr_displ x = Some (kf_d k) /\ rr_stress x = Some (kf_tau k) /\ rr_strain x = Some (kf_gamma k) /\
     rr_tf x = Some tf /\ rr_tf_smooth x = Some tfs /\ rr_dir x = dir) /\
  (n = 1%nat -> exists w', nonlinear_results time (h, sh) input q k tf tfs name dir = (w', Err TypeError)).
Proof.
  intros time h sh p q input k tf tfs name dir init lst n t s V C5 Er Z L EK Lq Hn (Kn & Kl & (Na & Ca & Fa) & (Nv & Cv & Fv) & (Nd & Cd & Fd) & (Ng & Cg & Fg) & (Nt & Ct & Ft)).
  destruct (kernel_good h p q init lst V C5 Er Z EK) as (G & Zq & NE).
  assert (CM : forall f, List.length (col_max f) = List.length (a_cols f)) by (intros; apply map_length).
  unfold nonlinear_results, column_stack. cbn [forallb]. rewrite !CM, Kn, Kl, Ca, Cv, Cd, Cg, Ct, !Nat.eqb_refl. cbn [andb bind].
  fold s. unfold surface_of. destruct (a_cols (kf_a k)) as [|c0 cs] eqn:EC; [cbn in Ca; lia|].
  assert (L0 : List.length c0 = List.length s) by (inversion Fa; assumption). assert (LT : List.length (times s) = List.length s) by apply map_length. rewrite LT, L0, Nat.eqb_refl. cbn [bind].
  set (y := combine (times s) c0 : signal). assert (Ly : List.length y = List.length s) by (unfold y; rewrite combine_length; lia).
  destruct (gm_new sh y) as (sh' & m & EG & ES & EN & _); [lia|]. rewrite EG. destruct (vs_new h q G Zq) as (h' & o & EV & _ & EO & _). rewrite EV. cbn [bind nth].
  assert (EOn : o_nlayer o = n) by lia.
  assert (GF : forall f, a_n f = List.length s -> (2 <= List.length (a_cols f))%nat -> genfromtxt f = Inst f).
  { intros f H1 H2. unfold genfromtxt. rewrite H1. rewrite (proj2 (Nat.leb_le 2 (List.length s)) L), (proj2 (Nat.leb_le _ _) H2). reflexivity. }
  split.
  - intros H2. rewrite !GF by (try rewrite EC; lia).
    match goal with |- context[results_init time (Inst input) (Inst m) (Inst o) (Inst ?avd) (Inst ?gt) _ _ _ _ _ _ _ _ _] =>
      set (x := mkresults input m o (Some avd) (Some gt) (Some tf) (Some tfs) (Some (kf_a k)) (Some (kf_v k)) (Some (kf_d k)) (Some (kf_tau k)) (Some (kf_gamma k)) (match name with Some nm => nm | None => "accel_" ++ time end)%string dir) end.
    exists h', sh', x. split.
    + f_equal. apply C63_accepts_iff. exists m, o. split.
      * constructor; cbn [instance instance_or_none fits]; auto; try (rewrite EN, Ly, EOn; split; try rewrite EC; cbn [List.length] in *; lia).
        right. right. cbn [instance fits a_n a_cols List.length]. rewrite EOn. repeat split; lia.
      * unfold absent. cbn [given x rr_input rr_surface rr_profile rr_tf rr_tf_smooth rr_accel rr_veloc rr_displ rr_stress rr_strain rr_max_avd rr_max_gt rr_name rr_dir].
        repeat (split; [reflexivity|]). split; [intros [N|N]; discriminate|]. split; [intros _; split; reflexivity|]. split; reflexivity.
    + cbn [x rr_input rr_surface rr_profile rr_tf rr_tf_smooth rr_accel rr_veloc rr_displ rr_stress rr_strain rr_max_avd rr_max_gt rr_name rr_dir]. split; [reflexivity|]. split; [exact ES|]. repeat split.
  - intros ->. assert (GT : genfromtxt (kf_tau k) = Wrong). { unfold genfromtxt. rewrite Ct. rewrite andb_false_r. reflexivity. }
    rewrite GT. rewrite (GF (kf_a k)), (GF (kf_v k)), (GF (kf_d k)) by (try rewrite EC; lia).
    assert (LA : List.length (a_cols (kf_a k)) = 2%nat) by (rewrite EC; exact Ca). exists (h', sh'). f_equal.
    unfold results_init, of_shape, is_2d. cbn [required optional bind a_n a_cols List.length]. rewrite EN, Ly, EOn, Na, Nv, Nd, LA, Cv, Cd, !Nat.eqb_refl. cbn. reflexivity.
Qed.

(** A profile of one soil layer that is thin enough not to be divided cannot be simulated:
    the files of strains and stresses have one column. *)
Theorem C87_single_layer_fails : forall time h sh p input lay lst k tf tfs name dir,
  let t := tbl h (o_tbl p) in let s := sig_at sh (m_accel input) in
  valid_table t -> t_ncol t = 5%nat -> t_rows t = [lay; lst] -> cell 0 lst = 0 -> cell 0 lay <= cell 1 lay / 225 ->
  (2 <= List.length s)%nat -> kernel_wrote k (List.length s) 1 ->
  exists q, kernel_profile h p = Ok q /\ List.length q = 2%nat /\ exists w', nonlinear_results time (h, sh) input q k tf tfs name dir = (w', Err TypeError).
Proof.
  intros time h sh p input lay lst k tf tfs name dir t s V C5 Er Z TH L K.
  assert (EK : kernel_profile h p = Ok (map divide_density [row_of lay; mkrow 0 (cell 1 lst) (skipn 2 lst)])).
  { unfold kernel_profile. change (o_rows h p) with (t_rows t). rewrite Er. unfold stratify. cbn [map last_res rev app bind removelast flat_map]. change (r_h (row_of lst)) with (cell 0 lst). rewrite (proj2 (Reqb_true _ _) Z).
    unfold sublayers. change (r_h (row_of lay)) with (cell 0 lay). change (r_vs (row_of lay)) with (cell 1 lay). rewrite (proj2 (Rleb_true _ _) TH). reflexivity. }
  eexists. split; [exact EK|]. split; [reflexivity|]. 
  destruct (C87_nonlinear time h sh p _ input k tf tfs name dir [lay] lst 1%nat V C5 Er Z L EK eq_refl (le_n 1) K) as [_ H]. apply H. reflexivity.
Qed.

(** ** C88: what the simulation classes accept *)
(** A set of parameters of one of the two classes. *)
Definition is_param (a : pararg) : Prop := a = PAHH \/ a = PAMKZ.

Theorem C88_linear : forall pok mok bnd G xi curves,
  (simulation_init pok mok bnd G xi curves = Ok tt <->
     pok = true /\ mok = true /\ (exists b, bnd = Some b) /\ G = xi /\ (G = PANone \/ is_param G) /\ curves <> Wrong) /\
  (forall e, simulation_init pok mok bnd G xi curves = Err e -> e = TypeError \/ (e = ValueError /\ bnd = None /\ pok = true /\ mok = true)).
Proof.
  intros pok mok bnd G xi curves. unfold simulation_init, is_param.
  assert (PE : pararg_eqb G xi = true <-> G = xi).
  { destruct G as [| | |i], xi as [| | |j]; cbn; try (split; [discriminate|intros; discriminate]); try (split; reflexivity). rewrite Nat.eqb_eq. split; congruence. }
  destruct pok, mok; cbn [negb]; try (split; [split; [discriminate|intros (? & ? & _); discriminate]|intros e [= <-]; auto]).
  destruct bnd as [b|]; [|split; [split; [discriminate|intros (_ & _ & (? & ?) & _); discriminate]|intros e [= <-]; auto 6]].
  destruct (pararg_eqb G xi); cbn [negb].
  2: { split; [split; [discriminate|intros (_ & _ & _ & E & _); apply PE in E; discriminate]|intros e [= <-]; auto]. }
  rewrite <- (proj1 PE eq_refl). destruct G as [| | |i]; cbn [not_param]; try (split; [split; [discriminate|intros (_ & _ & _ & _ & [?|[?|?]] & _); discriminate]|intros e [= <-]; auto]).
  all: destruct curves as [u| |].
  all: try (split; [split; [intros _; repeat split; auto; try discriminate; eauto|reflexivity]|discriminate]).
  all: split; [split; [discriminate|intros (_ & _ & _ & _ & _ & N); congruence]|intros e [= <-]; auto].
Qed.

Theorem C88_equivalent : forall pok mok bnd curves mats,
  (equiv_init pok mok bnd curves mats = Ok tt <->
     pok = true /\ mok = true /\ (exists b, bnd = Some b) /\ exists n, curves = Inst n /\ mats <> [] /\ Forall (fun m => m <= INR n) mats) /\
  (forall e, equiv_init pok mok bnd curves mats = Err e ->
     (e = TypeError /\ (pok = false \/ mok = false \/ forall n, curves <> Inst n)) \/
     (e = ValueError /\ (bnd = None \/ mats = [] \/ exists n, curves = Inst n /\ Exists (fun m => INR n < m) mats))).
Proof.
  intros pok mok bnd curves mats.
  assert (NE : forall n, ~ Forall (fun m => m <= INR n) mats -> Exists (fun m => INR n < m) mats).
  { intros n H. induction mats as [|m l IH]; [destruct H; constructor|]. destruct (Rle_lt_dec m (INR n)) as [A|A]; [|left; exact A]. right. apply IH. intros F. apply H. constructor; assumption. }
  destruct curves as [n| |]; unfold equiv_init; try (split; [split; [discriminate|intros (_ & _ & _ & n & E & _); discriminate]|]).
  2: { intros e [= <-]. left. split; [reflexivity|]. right. right. discriminate. }
  2: { split; [split; [intros H; exfalso; apply bind_ok in H as (u & H & _); destruct u; apply C88_linear in H; tauto|intros (_ & _ & _ & n & E & _); discriminate]|]. destruct (simulation_init _ _ _ _ _ _) as [u|e0] eqn:E; cbn [bind]; [destruct u; apply C88_linear in E; exfalso; tauto|]. intros e [= <-]. apply C88_linear in E as [->|(-> & E & _)]; [left|right; auto]. split; [reflexivity|]. right. right. discriminate. }
  destruct (simulation_init pok mok bnd PANone PANone (Inst tt)) as [u|e0] eqn:E; cbn [bind given].
  - destruct u. apply C88_linear in E as (-> & -> & (b & ->) & _). destruct (C60_check_layer_count mats None None (Some n)) as [CK CE]. split.
    + rewrite CK. split.
      * intros [H1 H2]. split; [reflexivity|]. split; [reflexivity|]. split; [eauto|]. exists n. split; [reflexivity|]. split; [exact H1|]. apply H2. auto.
      * intros (_ & _ & _ & n' & EN & A1 & A2). injection EN as <-. split; [exact A1|]. intros k [H|[H|H]]; [discriminate|discriminate|]. injection H as <-. exact A2.
    + intros e H. assert (NH : check_layer_count mats None None (Some n) <> Ok tt) by (rewrite H; discriminate). rewrite (CE NH) in H. injection H as <-. right. split; [reflexivity|]. destruct mats as [|m l]; [auto|]. right. right. exists n. split; [reflexivity|]. apply NE. intros F.
      assert (X : check_layer_count (m :: l) None None (Some n) = Ok tt) by (apply CK; split; [discriminate|]; intros k [H|[H|H]]; [discriminate|discriminate|]; injection H as <-; exact F).
      contradiction.
  - split; [split; [discriminate|]|].
    + intros (-> & -> & (b & ->) & _). cbn in E. discriminate.
    + intros e [= <-]. destruct pok; [|unfold simulation_init in E; cbn in E; injection E as <-; auto]. destruct mok; [|unfold simulation_init in E; cbn in E; injection E as <-; auto 6].
      destruct bnd; cbn in E; [discriminate|]. injection E as <-. auto.
Qed.

Theorem C88_nonlinear : forall pok mok bnd G xi nG nxi mats,
  (nonlinear_init pok mok bnd G xi nG nxi mats = Ok tt <->
     pok = true /\ mok = true /\ (exists b, bnd = Some b) /\ G = xi /\ is_param G /\ mats <> [] /\ Forall (fun m => m <= INR nG /\ m <= INR nxi) mats) /\
  (forall e, nonlinear_init pok mok bnd G xi nG nxi mats = Err e -> e = TypeError \/ e = ValueError).
Proof.
  intros pok mok bnd G xi nG nxi mats.
  assert (K : G <> PANone -> xi <> PANone -> nonlinear_init pok mok bnd G xi nG nxi mats = (let! _ := simulation_init pok mok bnd G xi PyNone in check_layer_count mats (Some nG) (Some nxi) None)) by (destruct G, xi; congruence || reflexivity).
  assert (GN : G = PANone \/ xi = PANone -> nonlinear_init pok mok bnd G xi nG nxi mats = Err TypeError) by (intros [H|H]; rewrite H; [reflexivity|destruct G; reflexivity]).
  assert (D : (G = PANone \/ xi = PANone) \/ (G <> PANone /\ xi <> PANone)) by (destruct G, xi; auto; right; split; discriminate).
  destruct D as [D|[D1 D2]].
  - rewrite GN by exact D. split; [split; [discriminate|]|intros e [= <-]; auto]. intros (_ & _ & _ & EX & [H|H] & _); rewrite <- EX, H in D; destruct D; discriminate.
  - rewrite K by assumption. clear K GN. destruct (C60_check_layer_count mats (Some nG) (Some nxi) None) as [CK CE]. split.
    + split.
      * intros H. apply bind_ok in H as (u & H1 & H2). destruct u. apply C88_linear in H1 as (-> & -> & HB & -> & HP & _). apply CK in H2 as [H2 H3]. repeat split; auto.
        -- destruct HP as [HP|HP]; [congruence|exact HP].
        -- pose proof (H3 nG ltac:(auto)) as A. pose proof (H3 nxi ltac:(auto)) as B. rewrite Forall_forall in *. auto.
      * intros (-> & -> & HB & -> & HP & H1 & H2). rewrite (proj2 (proj1 (C88_linear true true bnd xi xi PyNone))) by (repeat split; auto; discriminate). cbn [bind]. apply CK. split; [exact H1|].
        intros n [H|[H|H]]; [injection H as <-|injection H as <-|discriminate]; eapply Forall_impl; try exact H2; cbn; tauto.
    + intros e H. destruct (simulation_init _ _ _ _ _ _) as [u|e0] eqn:E; cbn [bind] in H.
      * rewrite CE in H by (rewrite H; discriminate). injection H as <-. auto.
      * injection H as ->. apply C88_linear in E as [E|[E _]]; auto.
Qed.

(** ** Instances *)
Definition demo_p : vsobj := mkobj 0 0 300 1 1.
Definition demo_m (ar : arias) : motion := mkmotion (1 / 100) 5 [] 0 0 0 0 0 0 ar (0, 0, 0).
Lemma demo_odd_step : first_step demo_odd <> Ok 0.
Proof. unfold first_step, get, times, demo_odd. cbn. intros [= H]. lra. Qed.
Example C86_instance : forall ar, (exists w' x, linear_run "t" ([demo_table], [demo_odd]) demo_p (demo_m ar) Elastic true false None None = (w', Ok x)) /\
  (exists w' x, equiv_run "t" ([demo_table], [demo_odd]) demo_p (demo_m ar) demo_curves Elastic true None None = (w', Ok x)) /\
  (exists w' x, linear_run "t" ([demo_table], [demo_odd]) demo_p (demo_m ar) Elastic false true None None = (w', Ok x)) /\
  (exists w', linear_run "t" ([demo_table], [firstn 2 demo_odd]) demo_p (demo_m ar) Elastic true false None None = (w', Err IndexError)).
Proof.
  intros ar. destruct (demo_ok demo_odd Elastic) as [W A]; [cbn; lia|]. destruct C55_instance as (_ & Wc & GC & _).
  split; [|split; [|split]].
  - destruct (C86_linear "t" [demo_table] [demo_odd] demo_p (demo_m ar) Elastic false None None W demo_odd_step) as [I _]. apply I. split; [exact A|cbn; lia].
  - destruct (C86_equivalent "t" [demo_table] [demo_odd] demo_p (demo_m ar) demo_curves Elastic true None None W Wc GC demo_odd_step) as [I _]. apply I. split; [apply demo_eq_ok; cbn; lia|cbn; lia].
  - destruct (C86_surface_only "t" [demo_table] [demo_odd] demo_p (demo_m ar) Elastic true None None W) as [I _]; [cbn; lia| |apply I, A].
    unfold step_of, times. cbn. lra.
  - destruct (demo_ok (firstn 2 demo_odd) Elastic) as [_ A2]; [cbn; lia|]. assert (S2 : first_step (firstn 2 demo_odd) <> Ok 0) by (unfold first_step, get, times, demo_odd; cbn; intros [= H]; lra).
    assert (AC := A2). apply C56_accepts_iff in AC as [r E]; [|exact W].
    destruct (linear_run_cases "t" [demo_table] [firstn 2 demo_odd] demo_p (demo_m ar) Elastic false None None r W S2 E) as [_ H]. destruct H as [_ H]; [cbn; lia|exact H].
Qed.
Example C57_instance : forall ar, exists h' sh' x, linear_run "t" ([demo_table], [demo_odd]) demo_p (demo_m ar) Elastic true false None None = ((h', sh'), Ok (Some x)) /\
  made_of 1000 true [[1; 225; 5 / 100; 2000; 1]; [0; 800; 2 / 100; 2200; 0]] (o_rows h' (rr_profile x)).
Proof.
  intros ar. destruct (C86_instance ar) as (([h' sh'] & x & E) & _). destruct (demo_ok demo_odd Elastic) as [W A]; [cbn; lia|].
  destruct (C86_linear "t" [demo_table] [demo_odd] demo_p (demo_m ar) Elastic false None None W demo_odd_step) as (_ & I & _). destruct (I _ _ _ E) as (r & y & _ & -> & _).
  exists h', sh', y. split; [exact E|]. apply (C57_linear "t" [demo_table] [demo_odd] demo_p (demo_m ar) Elastic false None None h' sh' y W); [cbn; lia|exact E].
Qed.
Definition demo_kernel (n : nat) : kernel_files :=
  let file c := mkarr 5 (repeat [0; 1; 0; -1; 2] c) in
  mkkernel (repeat 0 (n + 1)) (repeat 0 n) (file (n + 1)%nat) (file (n + 1)%nat) (file (n + 1)%nat) (file n) (file n).
Lemma demo_wrote n : kernel_wrote (demo_kernel n) (List.length demo_odd) n.
Proof.
  assert (F : forall c, Forall (fun x : list R => List.length x = List.length demo_odd) (repeat [0; 1; 0; -1; 2] c)) by (intros c; apply Forall_forall; intros x H; apply repeat_spec in H as ->; reflexivity).
  unfold kernel_wrote, demo_kernel. cbn [kf_zn kf_zl kf_a kf_v kf_d kf_gamma kf_tau a_n a_cols]. rewrite !repeat_length. repeat match goal with |- _ /\ _ => split end; first [reflexivity|apply F].
Qed.
Definition two_table : table := mktable false 5 [[1; 225; 5 / 100; 2000; 1]; [1; 225; 5 / 100; 2000; 1]; [0; 800; 2 / 100; 2200; 0]].
Lemma two_ok : valid_table two_table.
Proof.
  assert (K : good_row true false [1; 225; 5 / 100; 2000; 1]).
  { exists 1, 225, [5 / 100; 2000; 1]. split; [reflexivity|]. split; [lra|]. split; [lra|]. exists (5 / 100), 2000, 1%Z. split; [reflexivity|]. split; [lra|]. split; [lra|lia]. }
  exists true. split; [reflexivity|]. exists [[1; 225; 5 / 100; 2000; 1]; [1; 225; 5 / 100; 2000; 1]], [0; 800; 2 / 100; 2200; 0]. split; [reflexivity|]. split.
  + constructor; [exact K|]. constructor; [exact K|]. constructor.
  + exists 0, 800, [2 / 100; 2200; 0]. split; [reflexivity|]. split; [lra|]. split; [lra|]. exists (2 / 100), 2200, 0%Z. split; [reflexivity|]. split; [lra|]. split; [lra|lia].
Qed.
Example C87_instance : forall ar tf tfs,
  (exists q, kernel_profile [demo_table] demo_p = Ok q /\ exists w', nonlinear_results "t" ([demo_table], [demo_odd]) (demo_m ar) q (demo_kernel 1) tf tfs None "d" = (w', Err TypeError)) /\
  (exists q, kernel_profile [two_table] demo_p = Ok q /\ exists w' x, nonlinear_results "t" ([two_table], [demo_odd]) (demo_m ar) q (demo_kernel 2) tf tfs None "d" = (w', Ok x)).
Proof.
  intros ar tf tfs. destruct (demo_ok demo_odd Elastic) as [W (V & _)]; [cbn; lia|]. split.
  - destruct (C87_single_layer_fails "t" [demo_table] [demo_odd] demo_p (demo_m ar) [1; 225; 5 / 100; 2000; 1] [0; 800; 2 / 100; 2200; 0] (demo_kernel 1) tf tfs None "d" V) as (q & E & _ & H); try reflexivity; [unfold cell; cbn; lra|cbn; lia|apply (demo_wrote 1)|]. exists q. split; [exact E|exact H].
  - assert (EK : kernel_profile [two_table] demo_p = Ok (map divide_density [mkrow 1 225 [5 / 100; 2000; 1]; mkrow 1 225 [5 / 100; 2000; 1]; mkrow 0 800 [2 / 100; 2200; 0]])).
    { unfold kernel_profile. change (o_rows [two_table] demo_p) with (t_rows two_table). unfold stratify, two_table. cbn [t_rows map last_res rev app bind removelast flat_map row_of cell nth skipn r_h r_vs r_rest]. rewrite (proj2 (Reqb_true _ _) eq_refl).
      unfold sublayers. unfold row_of, cell. cbn [r_h r_vs r_rest nth skipn]. replace (Rleb 1 (225 / 225)) with true by (symmetry; apply Rleb_true; lra). reflexivity. }
    eexists. split; [exact EK|].
    destruct (C87_nonlinear "t" [two_table] [demo_odd] demo_p _ (demo_m ar) (demo_kernel 2) tf tfs None "d" [[1; 225; 5 / 100; 2000; 1]; [1; 225; 5 / 100; 2000; 1]] [0; 800; 2 / 100; 2200; 0] 2%nat two_ok eq_refl eq_refl eq_refl ltac:(cbn; lia) EK eq_refl ltac:(lia) (demo_wrote 2)) as [H _].
    destruct (H (le_n 2)) as (h' & sh' & x & E & _). eauto.
Qed.
Example C88_instance : equiv_init true true (Some Elastic) (Inst 2%nat) [1; 2; 0] = Ok tt /\ equiv_init true true (Some Elastic) (Inst 1%nat) [1; 2; 0] = Err ValueError /\
  nonlinear_init true true (Some Rigid) PAHH PAHH 2 2 [1; 2; 0] = Ok tt /\ nonlinear_init true true (Some Rigid) PAHH PAMKZ 2 2 [1; 2; 0] = Err TypeError.
Proof.
  assert (K : forall n, (2 <= n)%nat -> Forall (fun m => m <= INR n) [1; 2; 0]) by (intros n H; apply le_INR in H; cbn in H; constructor; [lra|constructor; [lra|constructor; [lra|constructor]]]).
  split; [apply C88_equivalent; split; [reflexivity|]; split; [reflexivity|]; split; [eauto|]; exists 2%nat; split; [reflexivity|]; split; [discriminate|]; apply K; lia|]. split; [|split; [|reflexivity]].
  - destruct (C88_equivalent true true (Some Elastic) (Inst 1%nat) [1; 2; 0]) as [I J]. destruct (equiv_init true true (Some Elastic) (Inst 1%nat) [1; 2; 0]) as [u|e] eqn:E.
    + destruct u. destruct (proj1 I eq_refl) as (_ & _ & _ & n & EN & _ & F). injection EN as <-. inversion F as [|? ? _ F2]. inversion F2 as [|? ? F3 _]. cbn in F3. lra.
    + destruct (J e eq_refl) as [[_ [H|[H|H]]]|[-> _]]; try discriminate; [|reflexivity]. exfalso. apply (H 1%nat). reflexivity.
  - apply C88_nonlinear. repeat split; eauto; [left; reflexivity|discriminate|]. specialize (K 2%nat ltac:(lia)). rewrite Forall_forall in *. auto.
Qed.
