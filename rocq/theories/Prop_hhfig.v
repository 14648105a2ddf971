(** C124: figures and images of HH calibrations. *)
From Coq Require Import Reals List Bool ZArith Lia Lra String Psatz DecimalString DecimalZ.
From Verif Require Import Base M_generic M_profile M_interp M_soil M_curves M_amplify M_hhcal M_dampcal M_fits M_sitefactors M_figures M_figres M_hhfig.
From Verif Require Import P_generic P_hhcal P_soil Prop_soil Prop_hhcal Prop_freqspec P_figures Prop_figres.
Import ListNotations.
Open Scope string_scope.
Open Scope list_scope.
Open Scope R_scope.

(** ** The lines of one figure *)

(** Data of one layer that can be drawn. *)
Definition drawable (l : list R * list R * hh9) : Prop :=
  fst (fst l) <> [] /\ List.length (fst (fst l)) = List.length (snd (fst l)).

(** The two panels: stresses in kPa and modulus reductions, over strains in percent. *)
Definition panels (given : bool) (f : nat) (l : list R * list R * hh9) (lo hi : R) : list axes :=
  let '(strain, GG, y) := l in
  [mkaxes f [mkline strain (kPa (data_stress (y_G y) strain GG)) (Some (if given then "Given $G/G_{\max}$" else "MKZ"));
             mkline strain (kPa (fkz_stress y strain)) (Some "FKZ");
             mkline [lo; hi] [y_T y / 1000; y_T y / 1000] None;
             mkline strain (kPa (hh_stress y strain)) (Some "HH")] [] None (Some "Stress [kPa]") (Some (lo, hi)) None true;
   mkaxes f [mkline strain GG None; mkline strain (fkz_ratio_line y strain) None; mkline strain (hh_ratio y strain) None] [] None (Some "$G/G_{\max}$") (Some (lo, hi)) None true].

Lemma zip_length {A B D} (f : A -> B -> D) a b : List.length a = List.length b -> List.length (zipw f a b) = List.length a.
Proof. intros H. unfold zipw. rewrite map_length, combine_length. lia. Qed.
Lemma stress_length G strain GG : List.length strain = List.length GG -> List.length (data_stress G strain GG) = List.length strain.
Proof.
  intros H. unfold data_stress. pose proof (zip_length (fun e g => g * G * e / 100) strain GG H) as K. destruct (zipw _ strain GG) as [|x l]; [exact K|]. cbn [List.length] in *. exact K.
Qed.

Lemma layer_figure_run given strain GG y c : strain <> [] -> List.length strain = List.length GG ->
  exists lo hi, least strain lo /\ greatest strain hi /\
    layer_figure given strain GG y c = (mkcanvas (S (cv_figs c)) (cv_axes c ++ panels given (cv_figs c) (strain, GG, y) lo hi), Ok (cv_figs c)).
Proof.
  intros N L. destruct (rmin1 strain) as [lo|] eqn:E1; [|destruct strain; [congruence|discriminate]]. destruct (rmax1 strain) as [hi|] eqn:E2; [|destruct strain; [congruence|discriminate]].
  exists lo, hi. split; [apply rmin1_least, E1|]. split; [apply rmax1_greatest, E2|]. destruct c as [n l]. unfold layer_figure. cbn [cv_figs cv_axes].
  change (and_then new_figure ?k (mkcanvas n l)) with (k n (mkcanvas (S n) l)). cbv beta.
  rewrite run_sub. rewrite run_draw by (try reflexivity; unfold kPa; rewrite map_length, stress_length; auto).
  rewrite run_draw by (try reflexivity; unfold kPa, fkz_stress, T_FKZ; rewrite !map_length; reflexivity).
  rewrite E1. change (and_then (lift (Ok lo)) ?k) with (k lo). cbv beta. rewrite E2. change (and_then (lift (Ok hi)) ?k) with (k hi). cbv beta.
  rewrite run_draw by reflexivity. rewrite run_draw by (try reflexivity; unfold kPa, hh_stress; rewrite !map_length; reflexivity).
  rewrite run_ylabel by reflexivity. rewrite run_xlim by reflexivity. rewrite run_sub.
  rewrite run_draw by (try reflexivity; exact L). rewrite run_draw by (try reflexivity; unfold fkz_ratio_line; rewrite map_length; reflexivity).
  rewrite run_draw by (try reflexivity; unfold hh_ratio; rewrite zip_length; unfold hh_stress; rewrite map_length; reflexivity).
  rewrite run_ylabel by reflexivity. rewrite run_xlim by reflexivity. unfold done. rewrite <- app_assoc. reflexivity.
Qed.

(** The canvas after the figures of the layers, in order. *)
Inductive drawn (given : bool) : canvas -> list (list R * list R * hh9) -> canvas -> Prop :=
| drawn_nil c : drawn given c [] c
| drawn_cons c l ls c' lo hi : least (fst (fst l)) lo -> greatest (fst (fst l)) hi ->
    drawn given (mkcanvas (S (cv_figs c)) (cv_axes c ++ panels given (cv_figs c) l lo hi)) ls c' -> drawn given c (l :: ls) c'.

Lemma drawn_shape given c ls c' : drawn given c ls c' ->
  cv_figs c' = (cv_figs c + List.length ls)%nat /\ exists new, cv_axes c' = cv_axes c ++ new /\ List.length new = (2 * List.length ls)%nat.
Proof.
  induction 1 as [c|c l ls c' lo hi _ _ D (E1 & new & E2 & E3)]; [split; [cbn; lia|exists []; split; [symmetry; apply app_nil_r|reflexivity]]|].
  cbn [cv_figs cv_axes List.length] in *. split; [lia|]. exists (panels given (cv_figs c) l lo hi ++ new). rewrite E2, <- app_assoc. split; [reflexivity|].
  rewrite app_length, E3. destruct l as [[? ?] ?]. cbn [panels List.length]. lia.
Qed.

Lemma figures_plain given dir : forall ls j c d, Forall drawable ls -> exists c', drawn given c ls c' /\ hh_figures given true false dir j ls c d = (c', d, Ok tt).
Proof.
  induction ls as [|[[strain GG] y] ls IH]; intros j c d F; [exists c; split; [constructor|reflexivity]|]. inversion F as [|? ? [N L] F']; subst. cbn [fst snd] in N, L.
  destruct (layer_figure_run given strain GG y c N L) as (lo & hi & A & B & E). cbn [hh_figures]. rewrite E.
  destruct (IH (S j) (mkcanvas (S (cv_figs c)) (cv_axes c ++ panels given (cv_figs c) (strain, GG, y) lo hi)) d F') as (c' & D & E'). exists c'. split; [|exact E']. econstructor; [exact A|exact B|exact D].
Qed.

Lemma figures_saved given s : forall ls j c d, Forall drawable ls -> has_dir d s -> exists c' d', drawn given c ls c' /\
  hh_figures given true true (Some s) j ls c d = (c', d', Ok tt) /\ dk_dirs d' = dk_dirs d /\ dk_files d' = dk_files d ++ map (fun i => (s, image_name i)) (seq j (List.length ls)).
Proof.
  induction ls as [|[[strain GG] y] ls IH]; intros j c d F H; [exists c, d; split; [constructor|split; [reflexivity|split; [reflexivity|symmetry; apply app_nil_r]]]|].
  inversion F as [|? ? [N L] F']; subst. cbn [fst snd] in N, L.
  destruct (layer_figure_run given strain GG y c N L) as (lo & hi & A & B & E). cbn [hh_figures]. rewrite E. unfold savefig. rewrite (proj2 (is_dir_iff d s) H).
  destruct (IH (S j) (mkcanvas (S (cv_figs c)) (cv_axes c ++ panels given (cv_figs c) (strain, GG, y) lo hi)) (mkdisk (dk_dirs d) (dk_files d ++ [(s, image_name j)])) F' H) as (c' & d' & D & E' & D1 & D2).
  exists c', d'. split; [econstructor; [exact A|exact B|exact D]|]. split; [exact E'|]. split; [exact D1|]. rewrite D2. cbn [dk_files List.length seq map]. rewrite <- app_assoc. reflexivity.
Qed.

Lemma figures_none given save dir : forall ls j c d, hh_figures given false save dir j ls c d = (c, d, Ok tt).
Proof. induction ls as [|[[strain GG] y] ls IH]; intros j c d; [reflexivity|]. cbn [hh_figures]. apply IH. Qed.

(** ** Which figures and images there are *)

(** Data of a calibration from a profile can be drawn. *)
Lemma dense_ne : dense_strain_pct <> [].
Proof. intros H. assert (K : List.length dense_strain_pct = 400%nat) by (unfold dense_strain_pct, logspace; rewrite map_length; apply linspace_length). rewrite H in K. discriminate. Qed.
Lemma darendeli_drawable ps : Forall drawable (darendeli_data ps).
Proof. apply Forall_map, Forall_forall. intros p _. split; cbn [fst snd]; [apply dense_ne|symmetry; apply map_length]. Qed.
Lemma curves_drawable E ps : E <> [] -> Forall drawable (curve_data E ps).
Proof. intros N. apply Forall_map, Forall_forall. intros p _. split; cbn [fst snd]; [destruct E; [congruence|discriminate]|rewrite !map_length; reflexivity]. Qed.
Lemma darendeli_length ps : List.length (darendeli_data ps) = List.length ps. Proof. apply map_length. Qed.
Lemma curves_length E ps : List.length (curve_data E ps) = List.length ps. Proof. unfold curve_data. rewrite map_length, combine_length, seq_length. lia. Qed.

Lemma outcome given cols (data : list (list R) -> list (list R * list R * hh9)) :
  (forall ps, cols = Ok ps -> Forall drawable (data ps) /\ List.length (data ps) = List.length ps) -> forall save dir c d,
  with_figures given false save dir cols data c d = (c, d, cols) /\
  match cols with
  | Err e => with_figures given true save dir cols data c d = (c, d, Err e)
  | Ok ps =>
      (exists c', drawn given c (data ps) c' /\ with_figures given true false dir cols data c d = (c', d, Ok ps)) /\
      (forall s, has_dir d s -> exists c' d', drawn given c (data ps) c' /\ with_figures given true true (Some s) cols data c d = (c', d', Ok ps) /\
         dk_dirs d' = dk_dirs d /\ dk_files d' = dk_files d ++ map (fun i => (s, image_name i)) (seq 0 (List.length ps))) /\
      (ps <> [] -> forall dir', (dir' = None \/ exists s, dir' = Some s /\ ~ has_dir d s) -> exists c', drawn given c (firstn 1 (data ps)) c' /\
         with_figures given true true dir' cols data c d = (c', d, Err (match dir' with None => ValueError | Some _ => FileNotFoundError end)))
  end.
Proof.
  intros H save dir c d. split; [unfold with_figures; destruct cols; [rewrite figures_none|]; reflexivity|]. destruct cols as [ps|e]; [|reflexivity]. destruct (H ps eq_refl) as [F L]. clear H. unfold with_figures. split; [|split].
  - destruct (figures_plain given dir (data ps) 0 c d F) as (c' & D & E). exists c'. split; [exact D|]. rewrite E. reflexivity.
  - intros s Hs. destruct (figures_saved given s (data ps) 0 c d F Hs) as (c' & d' & D & E & D1 & D2). exists c', d'. rewrite E, D2, L. auto.
  - intros N dir' Hd. destruct (data ps) as [|[[strain GG] y] ls]; [destruct ps; [congruence|discriminate L]|]. inversion F as [|? ? [Ns Ls] F']; subst. cbn [fst snd] in Ns, Ls.
    destruct (layer_figure_run given strain GG y c Ns Ls) as (lo & hi & A & B & E). exists (mkcanvas (S (cv_figs c)) (cv_axes c ++ panels given (cv_figs c) (strain, GG, y) lo hi)).
    split; [cbn [firstn]; econstructor; [exact A|exact B|constructor]|]. cbn [hh_figures]. rewrite E. destruct Hd as [-> |(s & -> & Hs)]; [reflexivity|].
    unfold savefig. destruct (is_dir d s) eqn:I; [apply is_dir_iff in I; contradiction|reflexivity].
Qed.

(** From a profile: figures do not change the parameters; [save_fig] without [show_fig] does nothing, whatever the directory;
    with both, one figure and one image per layer; without a directory, or with one that does not exist, the call
    fails after drawing the first figure, and the parameters are lost. *)
Theorem C124_profile : forall p Tmax save dir c d,
  hh_from_profile_show false save dir p Tmax c d = (c, d, hh_param_from_profile p Tmax) /\
  match hh_param_from_profile p Tmax with
  | Err e => hh_from_profile_show true save dir p Tmax c d = (c, d, Err e)
  | Ok ps =>
      (exists c', drawn false c (darendeli_data ps) c' /\ hh_from_profile_show true false dir p Tmax c d = (c', d, Ok ps)) /\
      (forall s, has_dir d s -> exists c' d', drawn false c (darendeli_data ps) c' /\ hh_from_profile_show true true (Some s) p Tmax c d = (c', d', Ok ps) /\
         dk_dirs d' = dk_dirs d /\ dk_files d' = dk_files d ++ map (fun i => (s, image_name i)) (seq 0 (List.length ps))) /\
      (ps <> [] -> forall dir', (dir' = None \/ exists s, dir' = Some s /\ ~ has_dir d s) -> exists c', drawn false c (firstn 1 (darendeli_data ps)) c' /\
         hh_from_profile_show true true dir' p Tmax c d = (c', d, Err (match dir' with None => ValueError | Some _ => FileNotFoundError end)))
  end.
Proof. intros p Tmax save dir c d. apply outcome. intros ps _. split; [apply darendeli_drawable|apply darendeli_length]. Qed.

(** The figure of the fits: one panel per layer, with the data and the curve 1 / (1 + beta (strain / gamma_ref)^s). *)
Definition fit_panels (f : nat) (ls : list (list R * list R * hh9)) : list axes :=
  map (fun '(strain, GG, y) => mkaxes f [mkline strain GG (Some "Data points");
    mkline (map (fun g => g * 100) fit_strain) (map (fun g => 1 / (1 + y_beta y * Rpower (g / y_gr y) (y_s y))) fit_strain) (Some "Curve fit")] [] None (Some "G/Gmax") None None true) ls.
Definition with_fits (c : canvas) (ls : list (list R * list R * hh9)) : canvas := mkcanvas (S (cv_figs c)) (cv_axes c ++ fit_panels (cv_figs c) ls).

Definition positive_fit (y : hh9) : Prop := 0 < y_gr y /\ 0 < y_s y /\ 0 < y_beta y.
Lemma fit_strain_positive g : In g fit_strain -> 0 < g.
Proof. unfold fit_strain, geomspace. intros H. apply in_map_iff in H as (x & <- & _). apply exp_pos. Qed.
Lemma fit_line_is y : positive_fit y -> fit_line y = map (fun g => 1 / (1 + y_beta y * Rpower (g / y_gr y) (y_s y))) fit_strain.
Proof.
  intros (P1 & P2 & P3). apply map_ext_in. intros g Hg. apply fit_strain_positive in Hg. unfold mkz_ratio_at. cbn [nth]. unfold tau_MKZ. rewrite (Rabs_pos_eq g) by lra.
  assert (NZ : Reqb (y_gr y) 0 = false) by (apply Reqb_false; lra). rewrite NZ. unfold npow. assert (Q : 0 < g / y_gr y) by (apply Rmult_lt_0_compat; [lra|apply Rinv_0_lt_compat; lra]). rewrite (proj2 (Rltb_true _ _) Q).
  set (q := Rpower (g / y_gr y) (y_s y)). assert (0 < q) by apply exp_pos. assert (0 < y_beta y * q) by (apply Rmult_lt_0_compat; assumption). unfold ndiv. assert (NZ2 : Reqb (1 + y_beta y * q) 0 = false) by (apply Reqb_false; lra). rewrite NZ2. cbn [nval]. field. lra.
Qed.
Lemma fit_panels_run f : forall ls n l, Forall (fun x => drawable x /\ positive_fit (snd x)) ls -> fit_panels_of f ls (mkcanvas n l) = (mkcanvas n (l ++ fit_panels f ls), Ok tt).
Proof.
  induction ls as [|[[strain GG] y] ls IH]; intros n l F; [cbn; rewrite app_nil_r; reflexivity|]. inversion F as [|? ? [[_ L] P] F']; subst. cbn [fst snd] in L, P.
  cbn [fit_panels_of]. rewrite run_sub. rewrite run_draw by (try reflexivity; rewrite map_length; exact L). rewrite run_draw by (try reflexivity; unfold fit_line; rewrite !map_length; reflexivity). rewrite run_ylabel by reflexivity. rewrite IH by exact F'.
  unfold fit_panels. cbn [map]. rewrite <- app_assoc. rewrite (fit_line_is y P). replace (map (fun e => e / 100 * 100) strain) with strain; [reflexivity|]. rewrite <- (map_id strain) at 1. apply map_ext. intros e. field.
Qed.
Lemma fit_figure_run ls c : Forall (fun x => drawable x /\ positive_fit (snd x)) ls -> fit_figure ls c = (with_fits c ls, Ok tt).
Proof. intros F. destruct c as [n l]. unfold fit_figure. change (and_then new_figure ?k (mkcanvas n l)) with (k n (mkcanvas (S n) l)). cbv beta. rewrite fit_panels_run by exact F. reflexivity. Qed.

(** From curves, the same, behind the figure of the fits. *)
Theorem C124_curves : forall fit p rho mats w curves Tmax save dir c d, expand_curves curves mats <> [] ->
  hh_from_curves_show fit false save dir p rho mats w curves Tmax c d = (c, d, hh_param_from_curves fit p (Some (rho, mats)) w curves Tmax) /\
  match hh_param_from_curves fit p (Some (rho, mats)) w curves Tmax with
  | Err e => hh_from_curves_show fit true save dir p rho mats w curves Tmax c d = (c, d, Err e)
  | Ok ps => let data := curve_data (expand_curves curves mats) ps in Forall (fun q => positive_fit (hh9_of q)) ps ->
      (exists c', drawn true (with_fits c data) data c' /\ hh_from_curves_show fit true false dir p rho mats w curves Tmax c d = (c', d, Ok ps)) /\
      (forall s, has_dir d s -> exists c' d', drawn true (with_fits c data) data c' /\ hh_from_curves_show fit true true (Some s) p rho mats w curves Tmax c d = (c', d', Ok ps) /\
         dk_dirs d' = dk_dirs d /\ dk_files d' = dk_files d ++ map (fun i => (s, image_name i)) (seq 0 (List.length ps))) /\
      (ps <> [] -> forall dir', (dir' = None \/ exists s, dir' = Some s /\ ~ has_dir d s) -> exists c', drawn true (with_fits c data) (firstn 1 data) c' /\
         hh_from_curves_show fit true true dir' p rho mats w curves Tmax c d = (c', d, Err (match dir' with None => ValueError | Some _ => FileNotFoundError end)))
  end.
Proof.
  intros fit p rho mats w curves Tmax save dir c d N. unfold hh_from_curves_show. destruct (hh_param_from_curves fit p (Some (rho, mats)) w curves Tmax) as [ps|e]; [|split; reflexivity].
  assert (H : forall qs, Ok ps = Ok qs -> Forall drawable (curve_data (expand_curves curves mats) qs) /\ List.length (curve_data (expand_curves curves mats) qs) = List.length qs) by (intros qs _; split; [apply curves_drawable, N|apply curves_length]).
  split; [exact (proj1 (outcome true (Ok ps) (curve_data (expand_curves curves mats)) H save dir c d))|]. intros F. set (data := curve_data (expand_curves curves mats) ps) in *.
  assert (FF : Forall (fun x => drawable x /\ positive_fit (snd x)) data).
  { apply Forall_forall. intros x Hx. split; [exact (proj1 (Forall_forall _ _) (curves_drawable _ ps N) x Hx)|]. unfold data, curve_data in Hx. apply in_map_iff in Hx as ([j q] & <- & Hq). apply in_combine_r in Hq. cbn [snd]. exact (proj1 (Forall_forall _ _) F q Hq). }
  rewrite !(fit_figure_run data c FF). exact (proj2 (outcome true (Ok ps) (curve_data (expand_curves curves mats)) H save dir (with_fits c data) d)).
Qed.

(** One figure with two panels per layer, behind everything drawn before. *)
Theorem C124_count : forall given c ls c', drawn given c ls c' ->
  cv_figs c' = (cv_figs c + List.length ls)%nat /\ exists new, cv_axes c' = cv_axes c ++ new /\ List.length new = (2 * List.length ls)%nat /\
    forall k l, nth_error ls k = Some l -> exists lo hi, least (fst (fst l)) lo /\ greatest (fst (fst l)) hi /\
      firstn 2 (skipn (2 * k) new) = panels given (cv_figs c + k) l lo hi.
Proof.
  induction 1 as [c|c l ls c' lo hi Hlo Hhi D (E1 & new & E2 & E3 & K)].
  - split; [cbn; lia|]. exists []. split; [symmetry; apply app_nil_r|]. split; [reflexivity|]. intros [|k] l Hk; discriminate.
  - cbn [cv_figs cv_axes List.length] in *. split; [lia|]. exists (panels given (cv_figs c) l lo hi ++ new). rewrite E2, <- app_assoc. split; [reflexivity|].
    assert (L2 : List.length (panels given (cv_figs c) l lo hi) = 2%nat) by (destruct l as [[? ?] ?]; reflexivity). split; [rewrite app_length, E3, L2; lia|].
    intros [|k] l' Hk.
    + injection Hk as <-. exists lo, hi. split; [exact Hlo|]. split; [exact Hhi|]. replace (2 * 0)%nat with 0%nat by lia. cbn [skipn]. rewrite Nat.add_0_r. destruct l as [[? ?] ?]. reflexivity.
    + cbn [nth_error] in Hk. destruct (K k l' Hk) as (lo' & hi' & A & B & E). exists lo', hi'. split; [exact A|]. split; [exact B|].
      rewrite skipn_app, L2. replace (2 * S k - 2)%nat with (2 * k)%nat by lia. rewrite skipn_all2 by (rewrite L2; lia). cbn [app]. rewrite E. f_equal. lia.
Qed.

(** Images of different layers have different names, which do not depend on the profile: calibrating a second profile
    into the same directory replaces the images of the first. *)
Lemma dec_inj a b : dec a = dec b -> a = b.
Proof.
  assert (N : forall z, Z.to_int z <> Decimal.Pos Decimal.Nil /\ Z.to_int z <> Decimal.Neg Decimal.Nil).
  { intros [|q|q]; cbn [Z.to_int]; split; try discriminate; intros H; injection H; apply DecimalPos.Unsigned.to_uint_nonnil. }
  intros H. unfold dec in H. apply (f_equal NilZero.int_of_string) in H. destruct (N a), (N b). rewrite !NilZero.isi in H by assumption. injection H as H. rewrite <- (of_to a), <- (of_to b). f_equal. exact H.
Qed.
Lemma app_tail_inj : forall u v t, (u ++ t)%string = (v ++ t)%string -> u = v.
Proof.
  assert (L : forall u t, String.length (u ++ t)%string = (String.length u + String.length t)%nat) by (induction u as [|x u IH]; intros t; cbn; [|rewrite IH]; reflexivity).
  induction u as [|x u IH]; intros [|y v] t H; [reflexivity| | |].
  - apply (f_equal String.length) in H. rewrite !L in H. cbn in H. lia.
  - apply (f_equal String.length) in H. rewrite !L in H. cbn in H. lia.
  - cbn in H. injection H as -> H. f_equal. apply (IH v t H).
Qed.
Theorem C124_names : forall i,
  (exists t n, image_name i = ("Stress_GGmax_of_Layer_#" ++ t ++ ".png")%string /\ NilZero.int_of_string t = Some n /\ Z.of_int n = (Z.of_nat i + 1)%Z) /\
  forall j, image_name i = image_name j -> i = j.
Proof.
  intros i. split.
  - exists (dec (Z.of_nat (i + 1))), (Z.to_int (Z.of_nat (i + 1))). split; [reflexivity|]. split; [|rewrite of_to; lia]. unfold dec.
    apply NilZero.isi; destruct (Z.of_nat (i + 1)) as [|q|q]; cbn [Z.to_int]; try discriminate; intros H; injection H; apply DecimalPos.Unsigned.to_uint_nonnil.
  - intros j H. unfold image_name in H. cbn [String.append] in H. repeat (injection H as H). apply app_tail_inj in H. apply dec_inj in H. lia.
Qed.

(** ** What the panels say *)

Definition positive_hh (y : hh9) : Prop :=
  0 < y_gt y /\ 0 < y_a y /\ 0 < y_gr y /\ 0 < y_beta y /\ 0 < y_s y /\ 0 < y_G y /\ 0 < y_mu y /\ 0 < y_T y /\ 0 < y_d y.

Lemma usable_positive ps : HH_usable ps -> positive_hh (hh9_of ps).
Proof. intros (gt & gr & beta & s & G & mu & T & d & -> & H). unfold hh9_of, positive_hh. cbn [nth y_gt y_a y_gr y_beta y_s y_G y_mu y_T y_d]. lra. Qed.

Lemma nth_map0 {A} (f : A -> R) l k a : (k < List.length l)%nat -> nth k (map f l) 0 = f (nth k l a).
Proof. intros H. rewrite (nth_indep _ 0 (f a)) by (rewrite map_length; exact H). apply map_nth. Qed.
Lemma nth_zip (f : R -> R -> R) a b k : List.length a = List.length b -> (k < List.length a)%nat -> nth k (zipw f a b) 0 = f (nth k a 0) (nth k b 0).
Proof.
  apply zipw_nth.
Qed.

(** The first stress of the data is shown as 0, the others agree with the ratios in the lower panel; so do all HH
    stresses; the FKZ stress is below the strength. *)
Theorem C124_panels : forall strain GG y k, positive_hh y -> List.length strain = List.length GG -> (k < List.length strain)%nat -> 0 < nth k strain 0 ->
  let e := nth k strain 0 / 100 in
  nth k (kPa (data_stress (y_G y) strain GG)) 0 = (if Nat.eqb k 0 then 0 else nth k GG 0 * y_G y * e / 1000) /\
  nth k (kPa (hh_stress y strain)) 0 = nth k (hh_ratio y strain) 0 * y_G y * e / 1000 /\
  0 < nth k (kPa (fkz_stress y strain)) 0 < y_T y / 1000.
Proof.
  intros strain GG y k (P1 & P2 & P3 & P4 & P5 & P6 & P7 & P8 & P9) L Hk He e. assert (0 < e) by (unfold e; lra). split; [|split].
  - unfold kPa. rewrite (nth_map0 _ _ _ 0) by (rewrite stress_length; assumption). unfold data_stress.
    pose proof (nth_zip (fun e g => g * y_G y * e / 100) strain GG k L Hk) as Z. destruct (zipw _ strain GG) as [|x l] eqn:EZ.
    { pose proof (zip_length (fun e g => g * y_G y * e / 100) strain GG L) as Q. rewrite EZ in Q. cbn in Q. lia. }
    destruct k as [|k]; cbn [nth Nat.eqb] in *; [lra|]. rewrite Z. unfold e. field.
  - unfold hh_ratio, kPa. rewrite (nth_map0 _ _ _ 0) by (unfold hh_stress; rewrite map_length; exact Hk). rewrite nth_zip by (unfold hh_stress; rewrite map_length; auto). fold e. field. lra.
  - unfold kPa, fkz_stress, T_FKZ. rewrite map_map, map_map. rewrite (nth_map0 _ _ _ 0) by exact Hk. fold e. unfold tau_FKZ, npow. rewrite (Rabs_pos_eq e) by lra. rewrite (proj2 (Rltb_true 0 e)) by assumption.
    set (q := Rpower e (y_d y)). assert (0 < q) by apply exp_pos. unfold ndiv. assert (Q : 0 < y_G y / y_T y * y_mu y * q) by (repeat apply Rmult_lt_0_compat; try assumption; apply Rinv_0_lt_compat; assumption).
    assert (NZ : Reqb (1 + y_G y / y_T y * y_mu y * q) 0 = false) by (apply Reqb_false; lra). rewrite NZ. cbn [nval].
    assert (M : 0 < y_mu y * y_G y * q) by (repeat apply Rmult_lt_0_compat; assumption). split.
    + apply Rmult_lt_0_compat; [|lra]. apply Rmult_lt_0_compat; [exact M|apply Rinv_0_lt_compat; lra].
    + apply Rmult_lt_compat_r; [lra|]. apply Rmult_lt_reg_r with (1 + y_G y / y_T y * y_mu y * q); [lra|]. unfold Rdiv at 1. rewrite Rmult_assoc, Rinv_l, Rmult_1_r by lra.
      assert (y_T y * (1 + y_G y / y_T y * y_mu y * q) = y_T y + y_mu y * y_G y * q) by (field; lra). lra.
Qed.

(** The HH line lies between the MKZ and the FKZ lines of a calibration from a profile, at every strain but the first. *)
Theorem C124_between : forall ps k, HH_usable ps -> nth 3 ps 0 = 1 -> nth 4 ps 0 = 919/1000 -> (0 < k < 400)%nat ->
  let y := hh9_of ps in let strain := dense_strain_pct in
  let GG := map (dar_GGmax (y_gr y * 100)) strain in
  let m := nth k (kPa (data_stress (y_G y) strain GG)) 0 in let f := nth k (kPa (fkz_stress y strain)) 0 in
  Rmin m f <= nth k (kPa (hh_stress y strain)) 0 <= Rmax m f.
Proof.
  intros ps k HU Hb Hs Hk y strain GG m f. pose proof (usable_positive ps HU) as P. fold y in P. destruct P as (P1 & P2 & P3 & P4 & P5 & P6 & P7 & P8 & P9).
  assert (LS : List.length strain = 400%nat) by (unfold strain, dense_strain_pct, logspace; rewrite map_length; apply linspace_length).
  assert (LG : List.length GG = 400%nat) by (unfold GG; rewrite map_length; exact LS).
  assert (He : 0 < nth k strain 0).
  { unfold strain, dense_strain_pct, logspace. rewrite (nth_map0 _ _ _ 0) by (rewrite linspace_length; lia). apply exp_pos. }
  set (e := nth k strain 0 / 100). assert (0 < e) by (unfold e; lra).
  assert (Em : m = nth k GG 0 * y_G y * e / 1000).
  { unfold m, kPa. rewrite (nth_map0 _ _ _ 0) by (rewrite stress_length; lia). unfold data_stress.
    pose proof (nth_zip (fun e g => g * y_G y * e / 100) strain GG k ltac:(lia) ltac:(lia)) as Z. destruct (zipw _ strain GG) as [|x l] eqn:EZ.
    { pose proof (zip_length (fun e g => g * y_G y * e / 100) strain GG ltac:(lia)) as Q. rewrite EZ, LS in Q. discriminate. }
    destruct k as [|k]; [lia|]. cbn [nth] in *. rewrite Z. unfold e. cbn [nth]. field. }
  destruct (C44_HH_between_branches (y_gt y) (y_a y) (y_gr y) (y_beta y) (y_s y) (y_G y) (y_mu y) (y_T y) (y_d y) e) as (a & b & z & Ea & Eb & Ez & Bz & _); try lra.
  assert (Am : m = a / 1000).
  { rewrite Em. f_equal. unfold GG. rewrite (nth_map0 _ _ _ 0) by lia. fold strain.
    assert (Y3 : y_beta y = 1) by exact Hb. assert (Y4 : y_s y = 919/1000) by exact Hs. rewrite Y3, Y4 in Ea. clear - Ea P3 P6 H e He.
    unfold tau_MKZ in Ea. rewrite (Rabs_pos_eq e) in Ea by lra. assert (NZ : Reqb (y_gr y) 0 = false) by (apply Reqb_false; lra). rewrite NZ in Ea. unfold npow in Ea.
    assert (Q : 0 < e / y_gr y) by (apply Rmult_lt_0_compat; [lra|apply Rinv_0_lt_compat; lra]). rewrite (proj2 (Rltb_true _ _) Q) in Ea. unfold ndiv in Ea.
    set (q := Rpower (e / y_gr y) (919 / 1000)) in *. assert (0 < q) by apply exp_pos. assert (NZ2 : Reqb (1 + 1 * q) 0 = false) by (apply Reqb_false; lra). rewrite NZ2 in Ea. assert (Ea' : y_G y * e / (1 + 1 * q) = a) by congruence. rewrite <- Ea'.
    unfold dar_GGmax, phi5. replace (nth k strain 0 / (y_gr y * 100)) with (e / y_gr y) by (unfold e; field; lra). fold q. field. lra. }
  assert (Af : f = b / 1000).
  { unfold f, kPa, fkz_stress, T_FKZ. rewrite !map_map. rewrite (nth_map0 _ _ _ 0) by lia. fold e. rewrite Eb. reflexivity. }
  assert (Ah : nth k (kPa (hh_stress y strain)) 0 = z / 1000).
  { unfold kPa, hh_stress. rewrite !map_map. rewrite (nth_map0 _ _ _ 0) by lia. fold e. rewrite Ez. reflexivity. }
  rewrite Am, Af, Ah. unfold Rmin, Rmax in *. destruct (Rle_dec a b); destruct (Rle_dec (a / 1000) (b / 1000)); lra.
Qed.

(** The parameters in the order of the matrix returned. *)
Definition in_order (y : hh9) : list R := [y_gt y; y_a y; y_gr y; y_beta y; y_s y; y_G y; y_mu y; y_T y; y_d y].
Lemma usable_order ps : HH_usable ps -> in_order (hh9_of ps) = ps.
Proof. intros (gt & gr & beta & s & G & mu & T & d & -> & _). reflexivity. Qed.

(** Every layer of a calibration from a profile is such a layer. *)
Theorem C124_every_layer : forall p c d, ready_profile p -> exists ps c', hh_from_profile_show true false None p None c d = (c', d, Ok ps) /\
  List.length ps = (List.length p - 1)%nat /\ drawn false c (darendeli_data ps) c' /\ cv_figs c' = (cv_figs c + (List.length p - 1))%nat /\
  forall j k, (j < List.length p - 1)%nat -> (0 < k < 400)%nat -> exists strain GG y,
    nth_error (darendeli_data ps) j = Some (strain, GG, y) /\ in_order y = nth j ps [] /\
    let m := nth k (kPa (data_stress (y_G y) strain GG)) 0 in let f := nth k (kPa (fkz_stress y strain)) 0 in
    0 < f < y_T y / 1000 /\ Rmin m f <= nth k (kPa (hh_stress y strain)) 0 <= Rmax m f.
Proof.
  intros p c d H. destruct (C73_parameters_from_profile p H) as (ps & rho & E & L & _ & K). destruct (C124_profile p None false None c d) as [_ Q]. rewrite E in Q. destruct Q as ((c' & D & Q) & _).
  exists ps, c'. split; [exact Q|]. split; [exact L|]. split; [exact D|]. split; [rewrite (proj1 (C124_count _ _ _ _ D)), darendeli_length, L; reflexivity|].
  intros j k Hj Hk. destruct (K j Hj) as (U & B3 & B4 & _). set (y := hh9_of (nth j ps [])).
  exists dense_strain_pct, (map (dar_GGmax (y_gr y * 100)) dense_strain_pct), y. split.
  { unfold darendeli_data. rewrite nth_error_map. rewrite (nth_error_nth' ps [] (n := j)) by lia. reflexivity. }
  split; [apply usable_order, U|]. split; [|apply (C124_between _ k U B3 B4 Hk)].
  assert (LS : List.length dense_strain_pct = 400%nat) by (unfold dense_strain_pct, logspace; rewrite map_length; apply linspace_length).
  refine (proj2 (proj2 (C124_panels dense_strain_pct (map (dar_GGmax (y_gr y * 100)) dense_strain_pct) y k (usable_positive _ U) _ _ _))); [rewrite map_length; reflexivity|lia|].
  unfold dense_strain_pct, logspace. rewrite (nth_map0 _ _ _ 0) by (rewrite linspace_length; lia). apply exp_pos.
Qed.

(** Calibrating from curves draws, for every layer, the curve of its own material. *)
Theorem C124_own_curves : forall fit p rho mats w curves c d,
  (2 <= List.length p)%nat -> Forall (fun l => 0 < fst l /\ 0 < snd l) (removelast p) ->
  List.length rho = (List.length p - 1)%nat -> List.length mats = (List.length p - 1)%nat -> Forall (fun r => 0 < r) rho -> curves <> [] ->
  Forall (fun r => List.length r = w) curves -> Forall (material_ok w) mats ->
  (forall m, In m mats -> exists gr s beta,
     fit (combine (map (fun g => g / 100) (material_column curves m 0)) (material_column curves m 1)) = Ok (gr, s, beta) /\ 0 < gr /\ 0 < s /\ 0 < beta) ->
  exists ps c' layers, hh_from_curves_show fit true false None p rho mats w curves None c d = (c', d, Ok ps) /\ List.length ps = (List.length p - 1)%nat /\
    drawn true (with_fits c layers) layers c' /\ List.length layers = List.length ps /\
    forall j, (j < List.length p - 1)%nat -> exists y, positive_hh y /\ in_order y = nth j ps [] /\
      nth_error layers j = Some (material_column curves (nth j mats 0%nat) 0, material_column curves (nth j mats 0%nat) 1, y).
Proof.
  intros fit p rho mats w curves c d H1 H2 H3 H4 H5 Hc H6 H7 H8. destruct (C74_material_number_selects_the_curve fit p rho mats w curves H1 H2 H3 H4 H5 H6 H7 H8) as (ps & E & L & K).
  assert (NE : expand_curves curves mats <> []).
  { assert (M : mats <> []) by (destruct mats; [cbn in H4; lia|discriminate]). assert (Q : (0 < List.length curves)%nat) by (destruct curves; [congruence|cbn; lia]).
    destruct (expand_curves_spec curves mats 0 M Q) as [LE _]. destruct (expand_curves curves mats); [cbn in LE; lia|discriminate]. }
  destruct (C124_curves fit p rho mats w curves None false None c d NE) as [_ Q]. rewrite E in Q. cbv zeta in Q.
  assert (PF : Forall (fun q => positive_fit (hh9_of q)) ps).
  { apply Forall_forall. intros q Hq. apply (In_nth _ _ []) in Hq as (j & Hj & <-). destruct (K j ltac:(lia)) as (U & _). apply usable_positive in U. unfold positive_hh in U. unfold positive_fit. tauto. }
  destruct (Q PF) as ((c' & D & Q') & _). clear Q. rename Q' into Q.
  exists ps, c', (curve_data (expand_curves curves mats) ps). split; [exact Q|]. split; [exact L|]. split; [exact D|]. split; [apply curves_length|].
  intros j Hj. destruct (K j Hj) as (U & _). exists (hh9_of (nth j ps [])). split; [apply usable_positive, U|]. split; [apply usable_order, U|].
  unfold curve_data. rewrite nth_error_map. rewrite (nth_error_nth' (combine _ ps) (0%nat, []) (n := j)) by (rewrite combine_length, seq_length; lia). rewrite combine_nth by apply seq_length. rewrite seq_nth by lia. cbn [option_map fst snd Nat.add].
  pose proof (expanded_column w curves mats j 0 H6 H7 ltac:(lia) ltac:(lia)) as E0. pose proof (expanded_column w curves mats j 1 H6 H7 ltac:(lia) ltac:(lia)) as E1. rewrite Nat.add_0_r in E0. rewrite E0, E1. reflexivity.
Qed.

(** The FKZ line of the lower panel is the modulus reduction of the FKZ line of the upper panel for d = 1 only (apart from
    the strain of 100 %): the exponent is missing. *)
Theorem C124_FKZ_line : forall y strain k, positive_hh y -> (k < List.length strain)%nat -> 0 < nth k strain 0 ->
  (nth k (fkz_ratio_line y strain) 0 * y_G y * (nth k strain 0 / 100) / 1000 = nth k (kPa (fkz_stress y strain)) 0 <-> y_d y = 1 \/ nth k strain 0 = 100).
Proof.
  intros y strain k (P1 & P2 & P3 & P4 & P5 & P6 & P7 & P8 & P9) Hk He. set (e := nth k strain 0 / 100). assert (0 < e) by (unfold e; lra).
  unfold kPa, fkz_stress, T_FKZ, fkz_ratio_line. rewrite !map_map. rewrite !(nth_map0 _ _ _ 0) by exact Hk. fold e. rewrite (Rabs_pos_eq e) by lra.
  unfold tau_FKZ, npow. rewrite (Rabs_pos_eq e) by lra. rewrite (proj2 (Rltb_true 0 e)) by assumption. set (q := Rpower e (y_d y)). assert (Hq : 0 < q) by apply exp_pos.
  set (c := y_G y / y_T y * y_mu y). assert (Hc : 0 < c) by (unfold c; repeat apply Rmult_lt_0_compat; try assumption; apply Rinv_0_lt_compat; assumption).
  assert (0 < c * q) by (apply Rmult_lt_0_compat; assumption). assert (0 < c * e) by (apply Rmult_lt_0_compat; assumption).
  unfold ndiv. assert (NZ : Reqb (1 + c * q) 0 = false) by (apply Reqb_false; lra). rewrite NZ. cbn [nval].
  assert (EQ : y_mu y / (1 + c * e) * y_G y * e / 1000 = y_mu y * y_G y * q / (1 + c * q) / 1000 <-> e = q).
  { set (M := y_mu y * y_G y). assert (HM : 0 < M) by (apply Rmult_lt_0_compat; assumption). split.
    - intros E. assert (E' : M * e * (1 + c * q) = M * q * (1 + c * e)).
      { assert (A : M * e / (1 + c * e) = M * q / (1 + c * q)). { apply Rmult_eq_reg_r with (/ 1000); [|lra]. unfold Rdiv in *. unfold M in *. lra. }
        apply (f_equal (fun t => t * ((1 + c * e) * (1 + c * q)))) in A. field_simplify in A; [|lra|lra]. lra. }
      apply Rmult_eq_reg_l with M; [|lra]. lra.
    - intros <-. unfold M. field. lra. }
  rewrite EQ. split.
  - intros E. unfold q, Rpower in E. assert (L : ln e = y_d y * ln e) by (rewrite E at 1; apply ln_exp).
    assert (F : (y_d y - 1) * ln e = 0) by lra. apply Rmult_integral in F as [F|F]; [left; lra|right]. assert (e = 1) by (rewrite <- (exp_ln e) by assumption; rewrite F; apply exp_0). unfold e in *. lra.
  - intros [D|D]; unfold q.
    + rewrite D, Rpower_1 by assumption. reflexivity.
    + assert (E1 : e = 1) by (unfold e; rewrite D; field). rewrite E1. unfold Rpower. rewrite ln_1, Rmult_0_r, exp_0. reflexivity.
Qed.

Theorem C124_FKZ_line_refuted : exists y strain, positive_hh y /\ 67/100 <= y_d y <= 139/100 /\
  nth 0 (fkz_ratio_line y strain) 0 * y_G y * (nth 0 strain 0 / 100) / 1000 <> nth 0 (kPa (fkz_stress y strain)) 0.
Proof.
  exists (mkhh9 (1/1000) 100 (1/1000) 1 (919/1000) 1000000 (1/10) 1000 (12/10)), [1]. assert (P : positive_hh (mkhh9 (1/1000) 100 (1/1000) 1 (919/1000) 1000000 (1/10) 1000 (12/10))) by (repeat split; cbn; lra).
  split; [exact P|]. split; [cbn; lra|]. rewrite (C124_FKZ_line _ [1] 0 P) by (cbn; try lra; lia). cbn. lra.
Qed.

Example C124_instance : exists ps, hh_param_from_profile [(10, 200); (0, 800)] None = Ok ps /\ List.length ps = 1%nat /\
  exists c' d', hh_from_profile_show true true (Some "out") [(10, 200); (0, 800)] None blank (mkdisk ["out"] []) = (c', d', Ok ps) /\
    dk_files d' = [("out", "Stress_GGmax_of_Layer_#1.png")] /\ cv_figs c' = 1%nat.
Proof.
  destruct (C73_parameters_from_profile [(10, 200); (0, 800)]) as (ps & rho & E & L & _); [exact C73_instance|].
  exists ps. split; [exact E|]. cbn in L. split; [exact L|].
  destruct (C124_profile [(10, 200); (0, 800)] None true (Some "out") blank (mkdisk ["out"] [])) as [_ K]. rewrite E in K. destruct K as (_ & K & _).
  destruct (K "out" (or_introl eq_refl)) as (c' & d' & D & R1 & _ & F). exists c', d'. split; [exact R1|]. rewrite F, L. split; [reflexivity|].
  destruct (C124_count _ _ _ _ D) as [C _]. rewrite C, darendeli_length, L. reflexivity.
Qed.

Example C124_curves_instance : exists ps c',
  hh_from_curves_show (fun _ => Ok (1/1000, 9/10, 1)) true false None [(10, 200); (0, 800)] [1900] [1%nat] 4 [[1/100; 1; 1/100; 1]; [1; 1/2; 1; 10]] None blank (mkdisk [] []) = (c', mkdisk [] [], Ok ps) /\
  List.length ps = 1%nat /\ cv_figs c' = 2%nat.
Proof.
  destruct (C124_own_curves (fun _ => Ok (1/1000, 9/10, 1)) [(10, 200); (0, 800)] [1900] [1%nat] 4 [[1/100; 1; 1/100; 1]; [1; 1/2; 1; 10]] blank (mkdisk [] [])) as (ps & c' & ls & E & L & D & L2 & _).
  - cbn; lia.
  - repeat constructor; cbn; lra.
  - reflexivity.
  - reflexivity.
  - repeat constructor; lra.
  - discriminate.
  - repeat constructor.
  - repeat constructor; unfold material_ok; lia.
  - intros m _. exists (1/1000), (9/10), 1. split; [reflexivity|]. lra.
  - exists ps, c'. split; [exact E|]. cbn in L. split; [lia|]. rewrite (proj1 (C124_count _ _ _ _ D)), L2, L. reflexivity.
Qed.
