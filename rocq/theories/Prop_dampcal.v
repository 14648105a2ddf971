(** C64, C89: damping curves of a profile, and the parameters fitted to them. *)
From Coq Require Import Reals List Bool ZArith String Lia Lra.
From Coquelicot Require Import Coquelicot.
From Coq Require Import List.
From Verif Require Import Base M_generic M_profile M_vs_profile P_vs_profile M_motion P_motion M_soil P_soil M_interp P_interp M_params P_params Prop_params M_curves P_curves Prop_curves M_hhcal P_hhcal Prop_hhcal M_dampcal.
Import ListNotations.
Open Scope R_scope.
Open Scope list_scope.

(** ** Darendeli's damping *)
Lemma ln_quadratic x : 0 < x -> x - x ^ 2 / 2 < ln (1 + x).
Proof.
  intros Hx. set (f := fun t => ln (1 + t) - t + t ^ 2 / 2). set (f' := fun t => t ^ 2 / (1 + t)).
  destruct (MVT_cor2 f f' 0 x Hx) as (c & E & Hc).
  { intros t Ht. apply is_derive_Reals. unfold f, f'. auto_derive; [repeat split; lra|]. field. lra. }
  assert (F0 : f 0 = 0) by (unfold f; rewrite Rplus_0_r, ln_1; lra). rewrite F0 in E.
  assert (0 < f' c * (x - 0)) by (apply Rmult_lt_0_compat; [|lra]; unfold f'; apply Rdiv_lt_0_compat; [apply pow_lt; lra|lra]).
  unfold f in E. lra.
Qed.
Lemma PI_gt_3 : 3 < PI.
Proof. pose proof PI2_3_2. lra. Qed.
Lemma masing1_linear gr g : 0 < gr -> 0 < g -> dar_masing1 gr g <= 200 / 3 * Rmin 1 (g / gr).
Proof.
  intros Hr Hg. pose proof PI_gt_3 as HP. set (x := g / gr). assert (Hx : 0 < x) by (apply Rdiv_lt_0_compat; auto).
  assert (Eg : g = gr * x) by (unfold x; field; lra). destruct (dar_masing1_range gr g Hr Hg) as [M0 M1].
  assert (B1 : dar_masing1 gr g <= 200 / 3). { assert (200 / PI <= 200 / 3) by (apply Rmult_le_compat_l; [lra|]; apply Rinv_le_contravar; lra). lra. }
  assert (E : dar_masing1 gr g = 100 / PI * (4 * (x - ln (1 + x)) * (1 + x) / x ^ 2 - 2)).
  { unfold dar_masing1. replace ((g + gr) / gr) with (1 + x) by (rewrite Eg; field; lra). rewrite Eg. assert (0 < gr * x) by (apply Rmult_lt_0_compat; auto). field. repeat split; lra. }
  pose proof (ln_quadratic x Hx) as Q.
  assert (B2 : 4 * (x - ln (1 + x)) * (1 + x) / x ^ 2 - 2 <= 2 * x).
  { assert (X2 : 0 < x ^ 2) by (apply pow_lt, Hx). assert (4 * (x - ln (1 + x)) * (1 + x) / x ^ 2 <= 2 * (1 + x)); [|lra].
    apply Rmult_le_reg_r with (x ^ 2); [exact X2|]. replace (4 * (x - ln (1 + x)) * (1 + x) / x ^ 2 * x ^ 2) with (4 * (x - ln (1 + x)) * (1 + x)) by (field; lra).
    replace (2 * (1 + x) * x ^ 2) with (4 * (x ^ 2 / 2) * (1 + x)) by field. apply Rmult_le_compat_r; lra. }
  unfold Rmin. destruct Rle_dec; [lra|]. fold x. rewrite E.
  assert (Q1 : 0 < 100 / PI <= 100 / 3). { split; [apply Rdiv_lt_0_compat; lra|]. apply Rmult_le_compat_l; [lra|]. apply Rinv_le_contravar; lra. }
  assert (100 / PI * (4 * (x - ln (1 + x)) * (1 + x) / x ^ 2 - 2) <= 100 / PI * (2 * x)) by (apply Rmult_le_compat_l; lra). nra.
Qed.
(** The damping above its minimum: at most 44 %, and at most 44 % of the strain over the
    reference strain. *)
Definition darendeli (l : soil) (g : R) : R := dar_xi (s_PI l) (s_OCR l) (atm_of l) (gamma_r_pct (s_PI l) (s_OCR l) (atm_of l)) g.
Definition minimum (l : soil) : R := dar_Dmin (s_PI l) (s_OCR l) (atm_of l) / 100.
Lemma darendeli_range l g : good_soil l -> 0 < g ->
  minimum l < darendeli l g <= minimum l + 44 / 100 * Rmin 1 (g / gamma_r_pct (s_PI l) (s_OCR l) (atm_of l)).
Proof.
  intros (_ & _ & L3 & _) Hg. pose proof (gamma_r_pos (s_PI l) (s_OCR l) (atm_of l) L3) as Hgr. set (gr := gamma_r_pct _ _ _) in *.
  unfold minimum, darendeli, dar_xi. fold gr. pose proof dar_b_pos as B0. pose proof (Rpower_pos (dar_GGmax gr g) (1/10)) as P0. pose proof (dar_masing_pos gr g Hgr Hg) as M0.
  assert (P1 : Rpower (dar_GGmax gr g) (1 / 10) <= 1).
  { destruct (dar_GGmax_range gr g) as [A B]. apply Rle_trans with (Rpower 1 (1 / 10)); [apply Rle_Rpower_l; lra|rewrite rpower_1; lra]. }
  assert (B1 : dar_b <= 6329 / 10000). { unfold dar_b. assert (0 < ln 10); [|lra]. rewrite <- ln_1. apply ln_increasing; lra. }
  assert (M1 : dar_masing gr g <= 1023 / 1000 * dar_masing1 gr g).
  { destruct (dar_masing1_range gr g Hgr Hg) as [m0 _]. pose proof (masing1_linear gr g Hgr Hg) as m1. unfold dar_masing. set (m := dar_masing1 gr g) in *.
    assert (m <= 200 / 3). { pose proof (Rmin_l 1 (g / gr)). lra. }
    replace (dar_c1 * m + dar_c2 * m ^ 2 + dar_c3 * m ^ 3) with (m * (dar_c1 + m * (dar_c2 + dar_c3 * m))) by ring.
    rewrite (Rmult_comm (1023 / 1000)). apply Rmult_le_compat_l; [lra|]. unfold dar_c1, dar_c2, dar_c3, phi5. nra. }
  pose proof (masing1_linear gr g Hgr Hg) as m1. set (mn := Rmin 1 (g / gr)) in *. set (M := dar_masing gr g) in *. set (P := Rpower (dar_GGmax gr g) (1 / 10)) in *.
  assert (X : 0 < dar_b * P * M) by (apply Rmult_lt_0_compat; [apply Rmult_lt_0_compat|]; lra).
  assert (Y : dar_b * P * M <= 6329 / 10000 * M). { apply Rmult_le_compat_r; [lra|]. nra. }
  split; nra.
Qed.

(** ** The layers of a profile *)
Definition soil_rows (rows : list (list R)) : Prop := Forall (fun x => 0 < cell 0 x /\ 0 < cell 3 x) (removelast rows).
(** Mid-layer stress: the weight above plus half of the layer's own. *)
Definition overburden (rows : list (list R)) (k : nat) : R :=
  let w x := cell 3 x * (981 / 100) * cell 0 x in
  rsum (map w (firstn k rows)) + w (nth k rows []) / 2.
Definition layer_soil (rows : list (list R)) (k : nat) : soil :=
  let v := cell 1 (nth k rows []) in
  let sv := overburden rows k in
  let o := 106 * Rpower v (147 / 100) / sv in
  mksoil sv (if Rle_dec v 200 then 10 else if Rle_dec v 360 then 5 else 0) o ((1 - sin (PI / 6)) * Rpower o (sin (PI / 6))).

Lemma nth_map_k {A B} (f : A -> B) l k d0 d : (k < List.length l)%nat -> nth k (map f l) d = f (nth k l d0).
Proof. apply nth_map_at. Qed.
Lemma combine_map {A B C} (f : A -> B) (g : A -> C) l : combine (map f l) (map g l) = map (fun x => (f x, g x)) l.
Proof. induction l as [|x l IH]; [reflexivity|]. cbn. rewrite IH. reflexivity. Qed.
Lemma soils_eq rows : soil_rows rows -> (2 <= List.length rows)%nat ->
  exists ls, dc_soils rows = Ok ls /\ List.length ls = (List.length rows - 1)%nat /\
    forall k, (k < List.length rows - 1)%nat -> nth k ls (mksoil 0 0 0 0) = layer_soil rows k /\ good_soil (layer_soil rows k) /\ In (layer_soil rows k) ls.
Proof.
  intros S L. set (layers := removelast rows). assert (NR : rows <> []) by (intros ->; cbn in L; lia).
  assert (LL : List.length layers = (List.length rows - 1)%nat). { unfold layers. rewrite (app_removelast_last [] NR) at 2. rewrite app_length. cbn. lia. }
  assert (NL : layers <> []) by (intros E; rewrite E in LL; cbn in LL; lia). destruct (exists_last NL) as (li & x & EL).
  assert (PX : 0 < cell 0 x). { unfold soil_rows in S. fold layers in S. rewrite EL in S. apply Forall_app in S as [_ S]. inversion S; tauto. }
  destruct (C47_vertical_stress (map (cell 0) layers) (map (cell 3) layers) (cell 0 x)) as (sv & EV & Lsv & Nsv & POS).
  { rewrite !map_length. reflexivity. } { rewrite EL, map_app. unfold last_res. rewrite rev_app_distr. reflexivity. } { lra. }
  destruct POS as [POS _]. { rewrite Forall_map. eapply Forall_impl; [|exact S]. cbn. tauto. } { rewrite Forall_map. eapply Forall_impl; [|exact S]. cbn. tauto. }
  rewrite map_length in *. unfold dc_soils. fold layers. rewrite EV. cbn [bind snd]. eexists. split; [reflexivity|].
  set (ocr := calc_OCR None (map (cell 1) layers) sv). assert (Locr : List.length ocr = List.length layers) by (unfold ocr, calc_OCR, zipw; rewrite map_length, combine_length, map_length; lia).
  split. { rewrite map_length, !combine_length, map_length. lia. }
  intros k Hk.
  assert (FL : forall j, (j <= List.length rows - 1)%nat -> firstn j layers = firstn j rows).
  { intros j Hj. unfold layers. rewrite (app_removelast_last [] NR) at 2. rewrite firstn_app. fold layers. replace (j - List.length layers)%nat with 0%nat by lia. cbn [firstn]. rewrite app_nil_r. reflexivity. }
  assert (NK : nth k layers [] = nth k rows []). { unfold layers. rewrite (app_removelast_last [] NR) at 2. rewrite app_nth1 by (fold layers; lia). reflexivity. }
  assert (ESV : nth k sv 0 = overburden rows k).
  { rewrite Nsv by lia. unfold weight_above, overburden. rewrite combine_map, firstn_map, map_map. rewrite FL by lia. f_equal.
    rewrite (nth_map_k (cell 0) layers k [] 0), (nth_map_k (cell 3) layers k [] 0) by lia. rewrite NK. unfold grav. lra. }
  assert (EV1 : nth k (map (cell 1) layers) 0 = cell 1 (nth k rows [])) by (rewrite (nth_map_k (cell 1) layers k [] 0) by lia; rewrite NK; reflexivity).
  assert (EO : nth k ocr 0 = 106 * Rpower (cell 1 (nth k rows [])) (147 / 100) / overburden rows k).
  { unfold ocr, calc_OCR, zipw. rewrite (nth_map_k _ _ k (0, 0) 0) by (rewrite combine_length, map_length; lia). rewrite combine_nth by (rewrite map_length; lia). cbn [fst snd]. rewrite EV1, ESV. unfold OCR_at. lra. }
  assert (EN : nth k (map (fun q => mksoil (fst (snd q)) (PI_at (fst q)) (snd (snd q)) (K0_at 30 (snd (snd q)))) (combine (map (cell 1) layers) (combine sv ocr))) (mksoil 0 0 0 0) = layer_soil rows k).
  { rewrite (nth_map_k _ _ k (0, (0, 0))) by (rewrite !combine_length, map_length; lia). rewrite combine_nth by (rewrite combine_length, map_length; lia). rewrite combine_nth by lia. cbn [fst snd]. rewrite ESV, EO, EV1.
    unfold layer_soil. f_equal.
    - unfold PI_at. destruct (Rle_dec (cell 1 (nth k rows [])) 200) as [A|A]; [rewrite (proj2 (Rleb_true _ _) A); reflexivity|]. rewrite (proj2 (Rleb_false _ _)) by lra.
      destruct (Rle_dec (cell 1 (nth k rows [])) 360) as [B|B]; [rewrite (proj2 (Rleb_true _ _) B); reflexivity|]. rewrite (proj2 (Rleb_false _ _)) by lra. reflexivity.
    - unfold K0_at, deg2rad. replace (30 * PI / 180) with (PI / 6) by field. reflexivity. }
  split; [exact EN|]. split.
  - assert (P : 0 < overburden rows k) by (rewrite <- ESV; apply POS; lia). unfold good_soil, layer_soil. cbn [s_sv s_K0 s_PI s_OCR]. split; [exact P|]. pose proof (Rpower_pos (cell 1 (nth k rows [])) (147 / 100)).
    split; [|split].
    + apply Rmult_lt_0_compat; [|apply Rpower_pos]. rewrite sin_PI6. lra.
    + destruct Rle_dec; [lra|]. destruct Rle_dec; lra.
    + apply Rdiv_lt_0_compat; [lra|exact P].
  - rewrite <- EN. apply nth_In. rewrite map_length, !combine_length, map_length. lia.
Qed.

(** ** The curves *)
(** Damping of layer [k] at strain [g], as a fraction; [g0] is the first strain. *)
Definition damping_at (use_Dmin : bool) (rows : list (list R)) (g0 : R) (k : nat) (g : R) : R :=
  let l := layer_soil rows k in
  if use_Dmin then darendeli l g else darendeli l g - darendeli l g0 + cell 2 (nth k rows []).

Lemma fresh_damping (sh : sheap) (s : signal) :
  (Forall (fun p => 0 <= fst p /\ 0 <= snd p <= 1) s ->
     exists sh', damping_init (sh ++ [s]) (List.length sh) SPct S1 None true = (sh', Ok (mkcurve (List.length sh) (List.length sh))) /\
       List.length sh' = S (List.length sh) /\ sig_at sh' (List.length sh) = map (fun p => (fst p, 100 * snd p)) s /\ forall l, (l < List.length sh)%nat -> sig_at sh' l = sig_at sh l) /\
  (~ Forall (fun p => 0 <= fst p /\ 0 <= snd p <= 1) s -> exists sh', damping_init (sh ++ [s]) (List.length sh) SPct S1 None true = (sh', Err ValueError)).
Proof.
  assert (HL : (List.length sh < List.length (sh ++ [s]))%nat) by (rewrite app_length; cbn; lia).
  destruct (C38_damping_curve (sh ++ [s]) (List.length sh) SPct S1 true HL) as (_ & _ & A & B & C). cbv zeta in *.
  assert (ES : sig_at (sh ++ [s]) (List.length sh) = s) by (unfold sig_at; rewrite app_nth2, Nat.sub_diag by lia; reflexivity). rewrite ES in *.
  cbn [per_cent] in *. split.
  - intros F. assert (NN : nonneg s) by (eapply Forall_impl; [|exact F]; cbn; tauto).
    assert (base : SPct <> SBad /\ (true = true -> nonneg s)) by (split; [discriminate|auto]).
    assert (IR : true = true -> Forall (fun p => 0 <= 100 * snd p <= 100) s) by (intros _; eapply Forall_impl; [|exact F]; cbn; intros; lra).
    specialize (A base ltac:(discriminate)). specialize (B base ltac:(discriminate) IR). destruct (damping_init _ _ _ _ _ _) as [sh' r]. cbn [fst snd] in *. exists sh'. rewrite B. split; [reflexivity|].
    destruct A as (A1 & A2 & A3). split; [rewrite A1, app_length; cbn; lia|]. split.
    + rewrite A2. unfold rescaled. apply map_ext. intros p. f_equal. lra.
    + intros l Hl. rewrite A3 by lia. unfold sig_at. rewrite app_nth1 by exact Hl. reflexivity.
  - intros F. destruct (damping_init _ _ _ _ _ _) as [sh' r]. cbn [fst snd] in *. exists sh'. f_equal. apply C. intros ([_ B1] & _ & B2). apply F. specialize (B1 eq_refl). specialize (B2 eq_refl). unfold nonneg in B1. rewrite Forall_forall in *. intros p Hp. specialize (B1 p Hp). specialize (B2 p Hp). cbn in *. lra.
Qed.

Ltac use_init E := match goal with |- context [damping_init ?a ?b ?c ?d ?e ?f] =>
  match type of E with _ = ?r => replace (damping_init a b c d e f) with r by (symmetry; exact E) end end; cbv iota beta.
Lemma build_spec strain use_Dmin : Forall (fun g => 0 < g) strain -> forall l vals (sh : sheap),
  Forall2 (fun q x => dc_values use_Dmin (fst q) (snd q) = Ok x /\ List.length x = List.length strain) l vals ->
  (Forall (Forall (fun v => 0 <= v <= 1)) vals ->
     exists sh' cs, dc_build sh strain use_Dmin l = (sh', Ok cs) /\ map c_raw cs = seq (List.length sh) (List.length l) /\ map c_data cs = map c_raw cs /\
       List.length sh' = (List.length sh + List.length l)%nat /\ (forall k, (k < List.length sh)%nat -> sig_at sh' k = sig_at sh k) /\
       forall k, (k < List.length l)%nat -> sig_at sh' (List.length sh + k) = combine strain (map (Rmult 100) (nth k vals []))) /\
  (~ Forall (Forall (fun v => 0 <= v <= 1)) vals -> exists sh', dc_build sh strain use_Dmin l = (sh', Err ValueError)).
Proof.
  intros PS. induction l as [|[xi D] l IH]; intros vs sh F; inversion F as [|? x ? vs' [E Lx] F']; subst; cbn [fst snd] in *.
  - split; [intros _|intros H; destruct H; constructor]. exists sh, []. cbn. repeat split; auto; try lia; intros; lia.
  - cbn [dc_build]. rewrite E. destruct (fresh_damping sh (combine strain x)) as [A B].
    assert (EQ : Forall (fun p => 0 <= fst p /\ 0 <= snd p <= 1) (combine strain x) <-> Forall (fun v => 0 <= v <= 1) x).
    { clear - PS Lx. revert x Lx. induction PS as [|g st Hg PS IH]; intros [|v x] L; try discriminate; [split; constructor|]. cbn [combine]. rewrite !Forall_cons_iff, (IH x) by (cbn in L; lia). cbn [fst snd]. intuition lra. }
    split.
    + intros V. inversion V as [|? ? V1 V2]; subst. destruct (A (proj2 EQ V1)) as (sh1 & E1 & L1 & S1' & O1). use_init E1.
      destruct (IH vs' sh1 F') as [G _]. destruct (G V2) as (sh2 & cs & E2 & R2 & D2 & L2 & O2 & S2). rewrite E2. cbn [bind].
      exists sh2, (mkcurve (List.length sh) (List.length sh) :: cs). split; [reflexivity|]. cbn [map c_raw c_data List.length seq]. rewrite R2, D2, R2, L1. split; [reflexivity|]. split; [reflexivity|]. split; [lia|]. split.
      * intros k Hk. rewrite O2, O1 by lia. reflexivity.
      * intros [|k] Hk; cbn [nth].
        -- rewrite Nat.add_0_r, O2, S1' by lia. clear - Lx. revert x Lx. induction strain as [|g st IHs]; intros [|v x] L; try discriminate; [reflexivity|]. cbn [combine map fst snd]. f_equal. apply IHs. cbn in L. lia.
        -- replace (List.length sh + S k)%nat with (List.length sh1 + k)%nat by lia. apply S2. cbn in Hk. lia.
    + intros V. destruct (Forall_dec (fun v => 0 <= v <= 1)) with (l := x) as [V1|V1].
      { intros v. destruct (Rle_dec 0 v), (Rle_dec v 1); [left|right|right|right]; lra. }
      * destruct (A (proj2 EQ V1)) as (sh1 & E1 & _). use_init E1. destruct (IH vs' sh1 F') as [_ G]. destruct G as (sh2 & E2); [intros V2; apply V; constructor; assumption|]. rewrite E2. cbn. eauto.
      * destruct B as (sh1 & E1); [rewrite EQ; exact V1|]. use_init E1. eauto.
Qed.

(** The curves of a profile: accepted exactly when all dampings lie between 0 and 1; one new
    array per soil layer, holding the strains and the dampings in per cent; nothing else in
    memory changes. *)
Theorem C89_curves : forall (sh : sheap) rows strain g0 use_Dmin, soil_rows rows -> (2 <= List.length rows)%nat ->
  Forall (fun g => 0 < g) strain -> hd_error strain = Some g0 ->
  let n := (List.length rows - 1)%nat in
  let fine := forall k g, (k < n)%nat -> In g strain -> 0 <= damping_at use_Dmin rows g0 k g <= 1 in
  (fine -> exists sh' cs, get_damping_curves sh rows strain use_Dmin = (sh', Ok cs) /\
     List.length cs = n /\ map c_data cs = map c_raw cs /\ NoDup (map c_raw cs) /\ Forall (fun l => (List.length sh <= l < List.length sh')%nat) (map c_raw cs) /\
     (forall k, (k < List.length sh)%nat -> sig_at sh' k = sig_at sh k) /\
     forall k, (k < n)%nat -> sig_at sh' (nth k (map c_raw cs) 0%nat) = map (fun g => (g, 100 * damping_at use_Dmin rows g0 k g)) strain) /\
  (~ fine -> exists sh', get_damping_curves sh rows strain use_Dmin = (sh', Err ValueError)).
Proof.
  intros sh rows strain g0 use_Dmin S L PS H0 n fine. destruct (soils_eq rows S L) as (ls & ELS & Ll & NS). unfold get_damping_curves. rewrite ELS. cbn [bind]. unfold produce_Darendeli_curves. rewrite map_map. cbn [fst snd].
  set (l := combine _ _). assert (NR : rows <> []) by (intros ->; cbn in L; lia).
  assert (LR : List.length (removelast rows) = n). { unfold n. rewrite (app_removelast_last [] NR) at 2. rewrite app_length. cbn. lia. }
  assert (LN : List.length l = n) by (unfold l; rewrite combine_length, !map_length, LR, Ll; fold n; lia).
  set (vs := map (fun k => map (damping_at use_Dmin rows g0 k) strain) (seq 0 n)).
  assert (F2 : Forall2 (fun q x => dc_values use_Dmin (fst q) (snd q) = Ok x /\ List.length x = List.length strain) l vs).
  { assert (LV : List.length vs = n) by (unfold vs; rewrite map_length, seq_length; reflexivity).
    assert (K : forall k, (k < n)%nat -> nth k l ([], 0) = (map (darendeli (layer_soil rows k)) strain, cell 2 (nth k rows [])) /\ nth k vs [] = map (damping_at use_Dmin rows g0 k) strain).
    { intros k Hk. split.
      - unfold l. rewrite combine_nth by (rewrite !map_length, LR, Ll; reflexivity). f_equal.
        + rewrite (nth_map_k _ ls k (mksoil 0 0 0 0)) by (rewrite Ll; exact Hk). destruct (NS k Hk) as [-> _]. reflexivity.
        + rewrite (nth_map_k _ (removelast rows) k []) by (rewrite LR; exact Hk). f_equal. rewrite (app_removelast_last [] NR) at 2. rewrite app_nth1 by (rewrite LR; exact Hk). reflexivity.
      - unfold vs. rewrite (nth_map_k _ _ k 0%nat) by (rewrite seq_length; exact Hk). rewrite seq_nth by exact Hk. reflexivity. }
    clearbody l vs. clear - K LN LV H0. 
    assert (G : forall a (l : list (list R * R)) (vs : list (list R)), List.length l = List.length vs -> (forall k, (k < List.length l)%nat -> nth k l ([], 0) = (map (darendeli (layer_soil rows (a + k))) strain, cell 2 (nth (a + k) rows [])) /\ nth k vs [] = map (damping_at use_Dmin rows g0 (a + k)) strain) ->
      Forall2 (fun q x => dc_values use_Dmin (fst q) (snd q) = Ok x /\ List.length x = List.length strain) l vs).
    { clear - H0. intros a l. revert a. induction l as [|q l IH]; intros a [|x vs] LL K; try discriminate; constructor.
      - destruct (K 0%nat ltac:(cbn; lia)) as [E1 E2]. cbn [nth] in E1, E2. rewrite E1, E2, Nat.add_0_r. cbn [fst snd]. rewrite map_length. split; [|reflexivity]. unfold dc_values, damping_at. destruct use_Dmin; [reflexivity|].
        destruct strain as [|g st]; [discriminate|]. injection H0 as ->. cbn [map]. f_equal. f_equal. rewrite map_map. reflexivity.
      - apply (IH (S a)); [cbn in LL; lia|]. intros k Hk. destruct (K (S k) ltac:(cbn; lia)) as [E1 E2]. replace (S a + k)%nat with (a + S k)%nat by lia. split; assumption. }
    apply (G 0%nat); [congruence|]. intros k Hk. rewrite LN in Hk. apply (K k Hk). }
  destruct (build_spec strain use_Dmin PS l vs sh F2) as [A B].
  assert (FV : Forall (Forall (fun v => 0 <= v <= 1)) vs <-> fine).
  { unfold vs. rewrite Forall_map, Forall_forall. split.
    - intros H k g Hk Hg. specialize (H k). rewrite Forall_map, Forall_forall in H. apply H; [apply in_seq; lia|exact Hg].
    - intros H k Hk. apply in_seq in Hk. rewrite Forall_map, Forall_forall. intros g Hg. apply H; [lia|exact Hg]. }
  split.
  - intros HF. destruct (A (proj2 FV HF)) as (sh' & cs & E & R & D & LS & O & V). rewrite LN in *. exists sh', cs. split; [exact E|].
    assert (LC : List.length cs = n) by (apply (f_equal (@List.length nat)) in R; rewrite map_length, seq_length in R; exact R).
    split; [exact LC|]. split; [exact D|]. rewrite R. split; [apply seq_NoDup|]. split; [apply Forall_forall; intros k Hk; apply in_seq in Hk; lia|]. split; [exact O|].
    intros k Hk. rewrite seq_nth by exact Hk. rewrite V by exact Hk. unfold vs. rewrite (nth_map_k _ _ k 0%nat) by (rewrite seq_length; exact Hk). rewrite seq_nth by exact Hk. cbn [Nat.add].
    clear. induction strain as [|g st IH]; [reflexivity|]. cbn [map combine]. f_equal. exact IH.
  - intros HF. apply B. rewrite FV. exact HF.
Qed.

(** With the damping of the profile, every curve starts at that damping, and stays within
    44 percentage points of it; with Darendeli's own minimum no curve is refused for a negative
    damping. *)
Theorem C89_values : forall rows strain g0, soil_rows rows -> (2 <= List.length rows)%nat -> Forall (fun g => 0 < g) strain -> hd_error strain = Some g0 ->
  forall k, (k < List.length rows - 1)%nat ->
  damping_at false rows g0 k g0 = cell 2 (nth k rows []) /\
  (forall g, In g strain -> Rabs (damping_at false rows g0 k g - cell 2 (nth k rows [])) <= 44 / 100) /\
  (forall g, In g strain -> cell 2 (nth k rows []) - 44 / 100 * (g0 / gamma_r_pct (s_PI (layer_soil rows k)) (s_OCR (layer_soil rows k)) (atm_of (layer_soil rows k))) <= damping_at false rows g0 k g) /\
  (forall g, In g strain -> 0 < damping_at true rows g0 k g) /\
  (forall g, In g strain -> damping_at false rows g0 k g - damping_at false rows g0 k g0 = damping_at true rows g0 k g - damping_at true rows g0 k g0).
Proof.
  intros rows strain g0 S L PS H0 k Hk. destruct (soils_eq rows S L) as (ls & _ & _ & NS). destruct (NS k Hk) as (_ & G & _). set (l := layer_soil rows k) in *.
  rewrite Forall_forall in PS. assert (I0 : In g0 strain) by (destruct strain as [|g st]; [discriminate|injection H0 as ->; left; reflexivity]).
  pose proof (darendeli_range l g0 G (PS _ I0)) as R0. unfold damping_at. fold l. set (gr := gamma_r_pct _ _ _) in *.
  assert (m1 : Rmin 1 (g0 / gr) <= 1) by apply Rmin_l. assert (m2 : Rmin 1 (g0 / gr) <= g0 / gr) by apply Rmin_r.
  split; [lra|]. split; [|split; [|split]].
  - intros g Hg. pose proof (darendeli_range l g G (PS _ Hg)) as Rg. fold gr in Rg. pose proof (Rmin_l 1 (g / gr)). apply Rabs_le. lra.
  - intros g Hg. pose proof (darendeli_range l g G (PS _ Hg)) as Rg. fold gr in Rg. lra.
  - intros g Hg. pose proof (darendeli_range l g G (PS _ Hg)) as Rg. unfold minimum in Rg. destruct G as (_ & _ & G3 & _). pose proof (dar_Dmin_pos (s_PI l) (s_OCR l) (atm_of l) G3). lra.
  - intros g Hg. lra.
Qed.

(** A profile of one row has no soil layer: the calibration raises. *)
Theorem C89_no_layer : forall (sh : sheap) rows strain use_Dmin, (List.length rows <= 1)%nat ->
  get_damping_curves sh rows strain use_Dmin = (sh, Err IndexError).
Proof. intros sh [|r [|r' rows]] strain d L; [reflexivity|reflexivity|cbn in L; lia]. Qed.

(** A sufficient condition in terms of the profile alone. *)
Lemma small_gamma_r l : good_soil l -> 352 / 10000 * Rmin 1 (s_sv l / 303975) <= gamma_r_pct (s_PI l) (s_OCR l) (atm_of l).
Proof.
  intros (A & B & P & O). set (p := atm_of l). assert (Hp : s_sv l / 303975 <= p).
  { unfold p, atm_of, mean_stress_at. assert (0 < s_K0 l * s_sv l) by (apply Rmult_lt_0_compat; auto). lra. }
  assert (p0 : 0 < s_sv l / 303975) by lra. unfold gamma_r_pct. pose proof (Rpower_pos (s_OCR l) (3246 / 10000)) as Q.
  assert (R : Rmin 1 (s_sv l / 303975) <= Rpower p (3483 / 10000)).
  { destruct (Rle_dec 1 p) as [H|H].
    - apply Rle_trans with 1; [apply Rmin_l|]. apply Rle_trans with (Rpower 1 (3483 / 10000)); [rewrite rpower_1; lra|]. apply Rle_Rpower_l; lra.
    - apply Rle_trans with p; [apply Rle_trans with (s_sv l / 303975); [apply Rmin_r|exact Hp]|]. rewrite <- (Rpower_1 p) at 1 by lra. unfold Rpower.
      assert (ln p <= 0). { rewrite <- ln_1. apply Rlt_le, ln_increasing; lra. }
      assert (E : 1 * ln p <= 3483 / 10000 * ln p) by lra. destruct E as [E|E]; [left; apply exp_increasing, E|right; f_equal; exact E]. }
  assert (0 < Rpower p (3483 / 10000)) by apply Rpower_pos. assert (0 <= 10 / 10000 * s_PI l * Rpower (s_OCR l) (3246 / 10000)) by (apply Rmult_le_pos; lra).
  assert (0 <= 10 / 10000 * s_PI l * Rpower (s_OCR l) (3246 / 10000) * Rpower p (3483 / 10000)) by (apply Rmult_le_pos; lra). lra.
Qed.
Theorem C89_accepted : forall rows strain g0, soil_rows rows -> (2 <= List.length rows)%nat -> Forall (fun g => 0 < g) strain -> hd_error strain = Some g0 ->
  forall k, (k < List.length rows - 1)%nat ->
  cell 2 (nth k rows []) <= 56 / 100 -> 25 / 2 * g0 <= cell 2 (nth k rows []) * Rmin 1 (overburden rows k / 303975) ->
  forall g, In g strain -> 0 <= damping_at false rows g0 k g <= 1.
Proof.
  intros rows strain g0 S L PS H0 k Hk U LO g Hg. destruct (C89_values rows strain g0 S L PS H0 k Hk) as (_ & A & B & _). specialize (A g Hg). specialize (B g Hg).
  destruct (soils_eq rows S L) as (ls & _ & _ & NS). destruct (NS k Hk) as (_ & G & _). pose proof (small_gamma_r _ G) as Q. cbn [s_sv layer_soil] in Q. fold (overburden rows k) in Q.
  assert (P0 : 0 < Rmin 1 (overburden rows k / 303975)). { destruct G as [G _]. cbn [s_sv layer_soil] in G. apply Rmin_glb_lt; lra. }
  set (gr := gamma_r_pct _ _ _) in *. set (m := Rmin 1 _) in *. assert (g0p : 0 < g0). { rewrite Forall_forall in PS. apply PS. destruct strain; [discriminate|]. injection H0 as ->. left. reflexivity. }
  assert (0 < gr) by lra. split; [|revert A; unfold Rabs; destruct Rcase_abs; lra].
  assert (44 / 100 * (g0 / gr) <= 44 / 100 * (g0 / (352 / 10000 * m))) by (apply Rmult_le_compat_l; [lra|]; apply Rmult_le_compat_l; [lra|]; apply Rinv_le_contravar; lra).
  assert (44 / 100 * (g0 / (352 / 10000 * m)) <= cell 2 (nth k rows [])); [|lra].
  replace (44 / 100 * (g0 / (352 / 10000 * m))) with (25 / 2 * g0 / m) by (field; lra). apply Rmult_le_reg_r with m; [exact P0|]. replace (25 / 2 * g0 / m * m) with (25 / 2 * g0) by (field; lra). exact LO.
Qed.

(** ** The fitted parameters *)
Lemma calibration_first : hd_error calibration_strain = Some (1 / 10000).
Proof.
  unfold calibration_strain, geomspace, linspace. change (seq 0 100) with (0%nat :: seq 1 99). cbn [map hd_error]. f_equal. change (Nat.eqb 100 1) with false. cbv iota. cbn [INR]. rewrite Rmult_0_l, Rplus_0_r.
  unfold log10, Rpower. assert (0 < ln 10) by (rewrite <- ln_1; apply ln_increasing; lra). replace (ln (1 / 10000) / ln 10 * ln 10) with (ln (1 / 10000)) by (field; lra). apply exp_ln. lra.
Qed.
Lemma calibration_positive : Forall (fun g => 0 < g) calibration_strain.
Proof. unfold calibration_strain, geomspace. rewrite Forall_map, Forall_forall. intros t _. apply Rpower_pos. Qed.

Lemma fits_distinct fit result : (forall h l, fit h l = (fst (fit_prepare h l), let! d := snd (fit_prepare h l) in Ok (result d))) ->
  forall parallel locs (h : sheap), NoDup locs -> (forall l, In l locs -> (l < List.length h)%nat /\ nonneg (sig_at h l) /\ sig_at h l <> []) ->
  exists h', fit_all fit parallel h locs = (h', Ok (map (fun l => result (fit_data (sig_at h l))) locs)) /\ (forall l, ~ In l locs -> sig_at h' l = sig_at h l).
Proof.
  intros Hr parallel locs h ND Hl. unfold fit_all. replace (existsb (fun l => existsb neg_cell (sig_at h l)) locs) with false.
  2:{ symmetry. apply not_true_iff_false. intros X. apply existsb_exists in X as (l & Hi & X). destruct (Hl l Hi) as (_ & Hn & _). apply neg_cell_true in X. contradiction. }
  destruct parallel.
  - exists h. split; [|auto]. f_equal. apply (map_res_ok _ (fun l => result (fit_data (sig_at h l)))). intros l Hi. destruct (Hl l Hi) as (L & Hn & Hne). destruct (fit_prepare_ok h l L Hn Hne) as (h1 & E1 & _). rewrite Hr, E1. reflexivity.
  - assert (G : forall locs (h : sheap), NoDup locs -> (forall l, In l locs -> (l < List.length h)%nat /\ nonneg (sig_at h l) /\ sig_at h l <> []) ->
      exists h', fit_serial fit h locs = (h', Ok (map (fun l => result (fit_data (sig_at h l))) locs)) /\ (forall l, ~ In l locs -> sig_at h' l = sig_at h l)); [|apply G; assumption].
    clear - Hr. induction locs as [|l locs IH]; intros h ND Hl; cbn [fit_serial map]; [exists h; auto|].
    inversion ND as [|? ? NI ND']; subst. destruct (Hl l (or_introl eq_refl)) as (L & Hn & Hne). destruct (fit_prepare_ok h l L Hn Hne) as (h1 & E1 & (L1 & S1' & F1)). rewrite Hr, E1. cbn [fst snd bind].
    assert (OTH : forall k, In k locs -> sig_at h1 k = sig_at h k) by (intros k Hk; apply F1; intros ->; contradiction).
    destruct (IH h1 ND') as (h2 & E2 & O2). { intros k Hk. rewrite OTH by exact Hk. rewrite L1. apply Hl. right. exact Hk. }
    rewrite E2. exists h2. split. { f_equal. cbn [bind]. f_equal. f_equal. apply map_ext_in. intros k Hk. rewrite OTH by exact Hk. reflexivity. }
    intros k Hk. rewrite O2 by (intros X; apply Hk; right; exact X). apply F1. intros ->. apply Hk. left. reflexivity.
Qed.

(** What is fitted for layer [k]: Darendeli's damping of the layer above its smallest-strain
    value. *)
Definition fitted (opt : list (R * R) -> list R) (rows : list (list R)) (k : nat) : dict :=
  HH_result opt (fit_data (map (fun g => (g, 100 * darendeli (layer_soil rows k) g)) calibration_strain)).
Lemma fit_data_shift s s' : offset s = offset s' -> fit_data s = fit_data s'.
Proof. intros E. unfold fit_data. rewrite E. reflexivity. Qed.

Theorem C64_calibration : forall opt parallel (sh : sheap) rows, soil_rows rows -> (2 <= List.length rows)%nat ->
  let n := (List.length rows - 1)%nat in
  let fine := forall k g, (k < n)%nat -> In g calibration_strain -> 0 <= damping_at false rows (1 / 10000) k g <= 1 in
  (fine -> exists sh', dc_HH_x opt parallel sh rows = (sh', Ok (map (fitted opt rows) (seq 0 n))) /\ dc_H4_x opt parallel sh rows = (sh', Ok (map (fitted opt rows) (seq 0 n))) /\
     forall k, (k < List.length sh)%nat -> sig_at sh' k = sig_at sh k) /\
  (~ fine -> snd (dc_HH_x opt parallel sh rows) = Err ValueError /\ snd (dc_H4_x opt parallel sh rows) = Err ValueError).
Proof.
  intros opt parallel sh rows S L n fine. destruct (C89_curves sh rows calibration_strain (1 / 10000) false S L calibration_positive calibration_first) as [A B]. fold n in A, B. fold fine in A, B. change (dc_H4_x opt parallel sh rows) with (dc_HH_x opt parallel sh rows). unfold dc_HH_x. split.
  - intros F. destruct (A F) as (sh1 & cs & E & Lc & _ & ND & FR & O & V). rewrite E. unfold all_HH_x.
    destruct (fit_shape opt (fit_HH opt) (or_introl eq_refl)) as (r0 & _).
    assert (Hr : forall h l, fit_HH opt h l = (fst (fit_prepare h l), let! d := snd (fit_prepare h l) in Ok (HH_result opt d))) by (intros h l; unfold fit_HH; destruct (fit_prepare h l) as [h1 r]; reflexivity).
    destruct (fits_distinct (fit_HH opt) (HH_result opt) Hr parallel (map c_raw cs) sh1 ND) as (sh2 & E2 & O2).
    { intros l Hl. rewrite Forall_forall in FR. specialize (FR l Hl). split; [lia|]. apply (In_nth _ _ 0%nat) in Hl as (k & Hk & <-). rewrite map_length, Lc in Hk. rewrite V by exact Hk. split.
      - unfold nonneg. rewrite Forall_map, Forall_forall. intros g Hg. pose proof (F k g Hk Hg). pose proof calibration_positive as CP. rewrite Forall_forall in CP. specialize (CP g Hg). cbn [fst snd]. lra.
      - pose proof calibration_first. destruct calibration_strain; discriminate. }
    rewrite E2. exists sh2. cbn [bind].
    assert (EM : map (fun l => HH_result opt (fit_data (sig_at sh1 l))) (map c_raw cs) = map (fitted opt rows) (seq 0 n)).
    { apply nth_ext with (d := []) (d' := []); [rewrite !map_length, seq_length; exact Lc|]. intros k Hk. rewrite !map_length in Hk. rewrite (nth_map_k _ _ k 0%nat) by (rewrite map_length; lia). rewrite (nth_map_k _ (seq 0 n) k 0%nat) by (rewrite seq_length; lia). rewrite seq_nth by lia. cbn [Nat.add]. unfold fitted. f_equal.
      rewrite V by lia. apply fit_data_shift. pose proof calibration_first as CF. unfold offset. rewrite !map_map. cbn [fst snd]. destruct calibration_strain as [|g st]; [discriminate|]. injection CF as ->. cbn [map first_damping]. cbn [fst snd]. unfold damping_at. f_equal; [f_equal; lra|]. apply map_ext. intros g. f_equal. lra. }
    rewrite EM.
    assert (EP : map_res (fun d => param_init HH_keys (Some d)) (map (fitted opt rows) (seq 0 n)) = Ok (map (fitted opt rows) (seq 0 n))).
    { rewrite <- (map_id (map (fitted opt rows) (seq 0 n))) at 2. apply map_res_ok. intros d Hd. apply in_map_iff in Hd as (k & <- & _). destruct (C40_constructor HH_keys (Some (fitted opt rows k))) as [_ C]. specialize (C (fitted opt rows k) eq_refl). apply C.
      - change (keys (fitted opt rows k)) with HH_keys. repeat constructor; cbn; intuition discriminate.
      - change (keys (fitted opt rows k)) with HH_keys. intros x. reflexivity. }
    rewrite EP. split; [reflexivity|]. split; [reflexivity|]. intros k Hk. rewrite O2, O by (try exact Hk; rewrite Forall_forall in FR; intros X; specialize (FR k X); lia). reflexivity.
  - intros F. destruct (B F) as (sh1 & E). rewrite E. split; reflexivity.
Qed.

(** For every table and optimiser, the H4 calibration returns the HH parameters: nine names,
    not the four that an MKZ parameter object accepts. *)
Lemma serial_keys opt : forall locs (h h' : sheap) ps, fit_serial (fit_HH opt) h locs = (h', Ok ps) -> Forall (fun d => keys d = HH_keys /\ Forall (fun kv => 0 < snd kv) d) ps.
Proof.
  induction locs as [|l locs IH]; intros h h' ps; cbn [fit_serial]; [intros [= _ <-]; constructor|].
  destruct (fit_HH opt h l) as [h1 [d|e]] eqn:E; [|discriminate]. destruct (fit_serial (fit_HH opt) h1 locs) as [h2 [ds|e]] eqn:E2; cbn [bind]; [|discriminate]. intros X. injection X as _ <-. constructor; [|eapply IH, E2].
  destruct (C46_fit_results opt h l h1 d) as [K _]. apply K, E.
Qed.
Theorem C64_H4_is_HH : forall opt parallel (sh : sheap) rows sh' ps, dc_H4_x opt parallel sh rows = (sh', Ok ps) ->
  dc_HH_x opt parallel sh rows = (sh', Ok ps) /\
  Forall (fun d => keys d = HH_keys /\ Forall (fun kv => 0 < snd kv) d /\ ~ set_eq (keys d) MKZ_keys /\ param_init MKZ_keys (Some d) = Err KeyError) ps.
Proof.
  intros opt parallel sh rows sh' ps E. split; [exact E|]. unfold dc_H4_x in E. destruct (get_damping_curves sh rows calibration_strain false) as [sh1 [cs|e]]; [|discriminate]. unfold all_HH_x in E.
  destruct (fit_all (fit_HH opt) parallel sh1 (map c_raw cs)) as [sh2 [ds|e]] eqn:EF; cbn [bind] in E; [|discriminate].
  assert (K : Forall (fun d => keys d = HH_keys /\ Forall (fun kv => 0 < snd kv) d) ds).
  { unfold fit_all in EF. destruct existsb; [discriminate|]. destruct parallel; [|eapply serial_keys, EF]. injection EF as _ EF. clear E. revert ds EF. generalize (map c_raw cs). induction l as [|l ls IH]; intros ds; cbn [map_res]; [intros [= <-]; constructor|].
    destruct (fit_HH opt sh1 l) as [h1 [d|e]] eqn:E1; cbn [snd bind]; [|discriminate]. destruct (map_res _ ls) as [ds'|e] eqn:E2; cbn [bind]; [|discriminate]. intros X. injection X as <-. constructor; [|apply IH; reflexivity]. destruct (C46_fit_results opt sh1 l h1 d) as [K _]. apply K, E1. }
  assert (EP : map_res (fun d => param_init HH_keys (Some d)) ds = Ok ds).
  { rewrite <- (map_id ds) at 2. apply map_res_ok. intros d Hd. rewrite Forall_forall in K. destruct (K d Hd) as [Kd _]. destruct (C40_constructor HH_keys (Some d)) as [_ C]. specialize (C d eq_refl). apply C; rewrite Kd; [repeat constructor; cbn; intuition discriminate|intros x; reflexivity]. }
  rewrite EP in E. injection E as _ <-. eapply Forall_impl; [|exact K]. intros d [Kd P]. cbn beta. split; [exact Kd|]. split; [exact P|]. split.
  - intros X. rewrite Kd in X. assert (I : In "gamma_t"%string MKZ_keys) by (apply X; cbn; tauto). cbn in I. intuition discriminate.
  - destruct (C40_constructor MKZ_keys (Some d)) as [_ C]. apply (C d eq_refl); rewrite Kd; [repeat constructor; cbn; intuition discriminate|]. intros X. assert (I : In "gamma_t"%string MKZ_keys) by (apply X; cbn; tauto). cbn in I. intuition discriminate.
Qed.

(** The damping column of the profile decides whether the calibration is accepted, but not the
    parameters. *)
Theorem C64_damping_irrelevant : forall opt par par' (sh sh1 sh' sh1' : sheap) rows rows' ps ps', soil_rows rows -> soil_rows rows' -> (2 <= List.length rows)%nat ->
  map (fun r => (cell 0 r, cell 1 r, cell 3 r)) rows = map (fun r => (cell 0 r, cell 1 r, cell 3 r)) rows' ->
  dc_HH_x opt par sh rows = (sh1, Ok ps) -> dc_HH_x opt par' sh' rows' = (sh1', Ok ps') -> ps = ps'.
Proof.
  intros opt par par' sh sh1 sh' sh1' rows rows' ps ps' S S' L EC E E'. assert (EL : List.length rows = List.length rows') by (apply (f_equal (@List.length _)) in EC; rewrite !map_length in EC; exact EC).
  destruct (C64_calibration opt par sh rows S L) as [A B]. destruct (C64_calibration opt par' sh' rows' S' ltac:(lia)) as [A' B']. cbv zeta in *.
  match type of A with ?f -> _ => assert (F : f) end. { apply Classical_Prop.NNPP. intros N. destruct (B N) as [X _]. rewrite E in X. discriminate. }
  match type of A' with ?f -> _ => assert (F' : f) end. { apply Classical_Prop.NNPP. intros N. destruct (B' N) as [X _]. rewrite E' in X. discriminate. }
  destruct (A F) as (s1 & X & _). destruct (A' F') as (s2 & X' & _). rewrite X in E. rewrite X' in E'. injection E as _ <-. injection E' as _ <-. rewrite EL. apply map_ext_in. intros k Hk. apply in_seq in Hk.
  assert (ES : layer_soil rows k = layer_soil rows' k); [|unfold fitted; rewrite ES; reflexivity].
  assert (NK : (cell 0 (nth k rows []), cell 1 (nth k rows []), cell 3 (nth k rows [])) = (cell 0 (nth k rows' []), cell 1 (nth k rows' []), cell 3 (nth k rows' []))).
  { rewrite <- (nth_map_k (fun r => (cell 0 r, cell 1 r, cell 3 r)) rows k [] (0, 0, 0)) by lia. rewrite EC. rewrite (nth_map_k _ rows' k []) by lia. reflexivity. }
  injection NK as N0 N1 N3. unfold layer_soil. rewrite N1.
  assert (OV : overburden rows k = overburden rows' k).
  { unfold overburden. rewrite N0, N3. f_equal. f_equal. assert (W : map (fun x => cell 3 x * (981 / 100) * cell 0 x) rows = map (fun x => cell 3 x * (981 / 100) * cell 0 x) rows').
    { transitivity (map (fun q => snd q * (981 / 100) * fst (fst q)) (map (fun r => (cell 0 r, cell 1 r, cell 3 r)) rows)); [rewrite map_map; reflexivity|]. rewrite EC, map_map. reflexivity. }
    rewrite <- !firstn_map, W. reflexivity. }
  rewrite OV. reflexivity.
Qed.

(** ** A concrete profile *)
Definition demo_rows : list (list R) := [[10; 200; 2 / 100; 1800; 1]; [0; 400; 1 / 100; 2000; 0]].
Lemma demo_soil : soil_rows demo_rows.
Proof. repeat constructor; cbn; lra. Qed.
Lemma demo_fine : forall k g, (k < 1)%nat -> In g calibration_strain -> 0 <= damping_at false demo_rows (1 / 10000) k g <= 1.
Proof.
  intros k g Hk Hg. apply (C89_accepted demo_rows calibration_strain (1 / 10000) demo_soil ltac:(cbn; lia) calibration_positive calibration_first k); [cbn; lia| | |exact Hg]; destruct k; try lia; cbn; [lra|]. unfold overburden. cbn. unfold Rmin. destruct Rle_dec; lra.
Qed.
Example C64_instance : exists sh' d, dc_H4_x (fun _ => [0; 1]) false [] demo_rows = (sh', Ok [d]) /\ dget "gamma_t" d = Some 1 /\ ~ In "gamma_t"%string MKZ_keys.
Proof.
  destruct (C64_calibration (fun _ => [0; 1]) false [] demo_rows demo_soil ltac:(cbn; lia)) as [A _]. destruct (A demo_fine) as (sh' & _ & E & _). exists sh', (fitted (fun _ => [0; 1]) demo_rows 0). split; [exact E|]. unfold fitted. match goal with |- context [fit_data ?a] => generalize (fit_data a) end. intros x. cbn. split; [rewrite Rpower_O by lra; reflexivity|intuition discriminate].
Qed.
Example C89_instance : exists sh' c, get_damping_curves [] demo_rows calibration_strain false = (sh', Ok [c]) /\ hd_error (sig_at sh' (c_raw c)) = Some (1 / 10000, 2).
Proof.
  destruct (C89_curves [] demo_rows calibration_strain (1 / 10000) false demo_soil ltac:(cbn; lia) calibration_positive calibration_first) as [A _]. destruct (A demo_fine) as (sh' & cs & E & L & _ & _ & _ & _ & V). destruct cs as [|c [|]]; try discriminate. exists sh', c. split; [exact E|]. specialize (V 0%nat ltac:(cbn; lia)). cbn [map nth] in V. rewrite V. pose proof calibration_first as CF. destruct calibration_strain as [|g st]; [discriminate|]. injection CF as ->. cbn [map hd_error].
  unfold damping_at. generalize (darendeli (layer_soil demo_rows 0) (1 / 10000)). intros x. cbn. f_equal. f_equal. lra.
Qed.
Example C89_refused : exists sh', get_damping_curves [] [[10; 200; -1; 1800; 1]; [0; 400; 1 / 100; 2000; 0]] [1 / 10; 1] false = (sh', Err ValueError).
Proof.
  destruct (C89_curves [] [[10; 200; -1; 1800; 1]; [0; 400; 1 / 100; 2000; 0]] [1 / 10; 1] (1 / 10) false) as [_ B]; [repeat constructor; cbn; lra|cbn; lia|repeat constructor; lra|reflexivity|]. apply B. intros H. specialize (H 0%nat (1 / 10) ltac:(cbn; lia) ltac:(left; reflexivity)). unfold damping_at in H. match type of H with context [darendeli ?a ?b] => generalize dependent (darendeli a b) end. intros x H. cbn in H. lra.
Qed.
