(** C98: the HH calibration class. *)
From Coq Require Import Reals List Bool ZArith String Lia Lra.
From Verif Require Import Base M_generic M_profile M_vs_profile M_motion M_soil M_interp M_params M_dampcal M_hhcal M_curvemat M_hhclass
  P_generic P_soil P_interp P_hhcal Prop_params Prop_hhcal Prop_hhcal2 P_curvemat Prop_curvemat.
Import ListNotations.
Open Scope R_scope.
Open Scope string_scope.
Open Scope list_scope.

(** A profile that ends with a half space, and one that does not. *)
Definition with_halfspace (rows : list (list R)) : Prop := exists top h, rows = top ++ [h] /\ nth 0 h 0 = 0.
Definition without_halfspace (rows : list (list R)) : Prop := exists top h, rows = top ++ [h] /\ nth 0 h 0 <> 0.

Lemma last_thk top h : last (thk_col (top ++ [h])) 0 = nth 0 h 0.
Proof. unfold thk_col. rewrite map_app. cbn [map]. apply last_last. Qed.
Lemma layers_with rows : with_halfspace rows -> prof_layers rows = (List.length rows - 1)%nat.
Proof. intros (top & h & -> & E). unfold prof_layers. rewrite last_thk, E, (proj2 (Reqb_true 0 0) eq_refl). reflexivity. Qed.
Lemma layers_without rows : without_halfspace rows -> prof_layers rows = List.length rows.
Proof. intros (top & h & -> & E). unfold prof_layers. rewrite last_thk, (proj2 (Reqb_false _ 0) E). reflexivity. Qed.

(** The constructor accepts exactly: a profile, nothing or one curve per layer,
    nothing or one strength per layer. *)
Theorem C98_accepts_iff : forall prof c t k, calib_init prof c t = Ok k <->
  exists rows, prof = Some rows /\ k_rows k = rows /\
    ((c = NoCurves /\ k_curves k = None) \/ (exists cs, c = SomeCurves cs /\ k_curves k = Some cs /\ List.length cs = prof_layers rows)) /\
    ((t = NoTmax /\ k_Tmax k = None) \/ (exists v, t = SomeTmax v /\ k_Tmax k = Some v /\ List.length v = prof_layers rows)).
Proof.
  intros prof c t k. split.
  - destruct prof as [rows|]; [|discriminate]. cbn [calib_init]. intros H. exists rows. split; [reflexivity|].
    apply bind_ok in H as (cs & Ec & H). apply bind_ok in H as (tm & Et & H). injection H as <-. cbn. split; [reflexivity|]. split.
    + destruct c as [| |l]; try discriminate; [left; injection Ec as <-; auto|]. destruct (Nat.eqb_spec (List.length l) (prof_layers rows)) as [E|E]; [|discriminate]. injection Ec as <-. right. exists l. auto.
    + destruct t as [| |l]; try discriminate; [left; injection Et as <-; auto|]. destruct (Nat.eqb_spec (List.length l) (prof_layers rows)) as [E|E]; [|discriminate]. injection Et as <-. right. exists l. auto.
  - intros (rows & -> & Er & Hc & Ht). destruct k as [r kc kt]. cbn in *. subst r.
    destruct Hc as [[-> ->]|(cs & -> & -> & Lc)], Ht as [[-> ->]|(v & -> & -> & Lt)]; cbn [bind]; rewrite ?(proj2 (Nat.eqb_eq _ _) Lc); cbn [bind]; rewrite ?(proj2 (Nat.eqb_eq _ _) Lt); reflexivity.
Qed.

Theorem C98_rejects : forall rows c t cs v,
  calib_init None c t = Err TypeError /\
  calib_init (Some rows) BadCurves t = Err TypeError /\
  (List.length cs <> prof_layers rows -> calib_init (Some rows) (SomeCurves cs) t = Err ValueError) /\
  calib_init (Some rows) NoCurves BadTmax = Err TypeError /\
  (List.length v <> prof_layers rows -> calib_init (Some rows) NoCurves (SomeTmax v) = Err ValueError).
Proof.
  intros. split; [reflexivity|]. split; [reflexivity|]. split; [intros H; cbn; rewrite (proj2 (Nat.eqb_neq _ _) H); reflexivity|].
  split; [reflexivity|]. intros H; cbn; rewrite (proj2 (Nat.eqb_neq _ _) H); reflexivity.
Qed.

(** ** The parameter objects *)
Lemma multi_of_columns ls : Forall (fun l => List.length l = 9%nat) ls ->
  multi_from_array HH (List.length ls) (transpose_R 9 ls) = Ok (map (combine HH_keys) ls).
Proof.
  intros HF. destruct (model_facts HH ltac:(left; reflexivity)) as (HN & _ & _ & Hd).
  unfold multi_from_array, extract_from_param_format. cbn [bind].
  replace (map (map Fin) (transpose_R 9 ls)) with (map (map Fin) (map (map (fun x : R => x)) (transpose_R 9 ls))).
  2:{ f_equal. rewrite <- (map_id (transpose_R 9 ls)) at 2. apply map_ext. intros l. apply map_id. }
  change 9%nat with (List.length (mkeys HH)). rewrite (transposed_columns (List.length (mkeys HH)) ls (fun x : R => x)) by exact HF.
  assert (E1 : map_res (fun col => mdeser HH (map (fun x => match x with Fin r => r | _ => 0 end) col)) (map (map (fun x : R => Fin x)) ls) = Ok (map (combine HH_keys) ls)).
  { clear HN. induction HF as [|l ls L HF IH]; [reflexivity|]. cbn [map map_res].
    assert (Hmap : map (fun x => match x with Fin r => r | _ => 0 end) (map (fun x => Fin x) l) = l) by (rewrite map_map; apply map_id).
    rewrite Hmap, Hd by exact L. cbn [bind]. rewrite IH. reflexivity. }
  rewrite E1. cbn [bind]. clear E1. induction HF as [|l ls L HF IH]; [reflexivity|]. cbn [map map_res].
  assert (C' : complete (mkeys HH) (combine (mkeys HH) l)).
  { split; rewrite keys_combine by exact L; [exact HN|]. intros k. reflexivity. }
  change (combine HH_keys l) with (combine (mkeys HH) l). rewrite (proj1 (proj2 (C40_constructor (mkeys HH) _) _ eq_refl (proj1 C')) (proj2 C')). cbn [bind]. rewrite IH. reflexivity.
Qed.

Lemma profile_columns9 p t ps : hh_param_from_profile p t = Ok ps -> Forall (fun l => List.length l = 9%nat) ps.
Proof.
  unfold hh_param_from_profile. intros H. apply bind_ok in H as (u & _ & H). apply bind_ok in H as (rho & _ & H). apply bind_ok in H as (st & _ & H). apply bind_ok in H as (T & _ & H). injection H as <-.
  apply Forall_forall. intros x Hx. unfold zipw in Hx. apply in_map_iff in Hx as ([[[[[v G] sv] o] k] tt] & <- & _). cbn [fst snd darendeli_layer]. unfold layer_params.
  destruct (optimization_kernel _ _ _ _ _ _ _) as [[a g] d]. reflexivity.
Qed.
Lemma curves_columns9 f E l : forall j ps, curves_layers f E j l = Ok ps -> Forall (fun l => List.length l = 9%nat) ps.
Proof.
  induction l as [|x l IH]; intros j ps H; cbn [curves_layers] in H; [injection H as <-; constructor|].
  apply bind_ok in H as (q & Eq & H). apply bind_ok in H as (qs & Eqs & H). injection H as <-. constructor; [|eapply IH; eauto].
  destruct x as [[[[[v G] sv] o] k] T]. unfold curves_layer in Eq. apply bind_ok in Eq as ([[gr s] beta] & _ & Eq). injection Eq as <-. unfold layer_params.
  destruct (optimization_kernel _ _ _ _ _ _ _) as [[a g] d]. reflexivity.
Qed.
Lemma calib_columns9 f k ps : calib_columns f k = Ok ps -> Forall (fun l => List.length l = 9%nat) ps.
Proof.
  unfold calib_columns. destruct (k_curves k) as [cs|]; [|apply profile_columns9]. intros H. apply bind_ok in H as (M & _ & H). unfold hh_param_from_curves in H.
  apply bind_ok in H as ([rho mats] & _ & H). apply bind_ok in H as (u & _ & H). apply bind_ok in H as (st & _ & H). apply bind_ok in H as (T & _ & H).
  destruct (Nat.eqb _ _); [|discriminate]. eapply curves_columns9; eauto.
Qed.

(** Whatever is fitted comes back as one complete HH parameter set per column, and
    the saved file has one row per parameter and one column per layer: value [i]
    of layer [j] is the printed value of that parameter.  Saving does not change
    the result; without a directory it is an error and nothing is returned. *)
Theorem C98_fit_outcome : forall f now fmt k save dir name,
  match calib_columns f k with
  | Err e => calib_fit f now fmt k save dir name = Err e
  | Ok ps =>
      (save = true /\ dir = None /\ calib_fit f now fmt k save dir name = Err ValueError) \/
      (exists file, calib_fit f now fmt k save dir name = Ok (map (combine HH_keys) ps, file) /\
         (save = false -> file = None) /\
         (save = true -> exists d s, dir = Some d /\ file = Some s /\ s_dir s = d /\
            s_name s = ("HH_G_" ++ match name with Some n => n | None => now end ++ ".txt")%string /\
            List.length (s_rows s) = 9%nat /\
            forall i j, (i < 9)%nat -> (j < List.length ps)%nat -> nth j (nth i (s_rows s) []) 0 = fmt (nth i (nth j ps []) 0)))
  end.
Proof.
  intros f now fmt k save dir name. unfold calib_fit. destruct (calib_columns f k) as [ps|e] eqn:E; [|reflexivity]. cbn [bind].
  pose proof (multi_of_columns ps (calib_columns9 f k ps E)) as EM.
  destruct save; [destruct dir as [d|]|].
  - right. cbn [bind]. rewrite EM. cbn [bind]. eexists. split; [reflexivity|]. split; [discriminate|]. intros _. exists d. eexists. split; [reflexivity|]. split; [reflexivity|]. cbn [s_dir s_name s_rows].
    split; [reflexivity|]. split; [destruct name; reflexivity|]. split; [unfold transpose_R; rewrite !map_length, seq_length; reflexivity|].
    intros i j Hi Hj. unfold transpose_R. rewrite map_map. set (g := fun x => map fmt (map (fun l => nth x l 0) ps)).
    rewrite (nth_indep _ [] (g 0%nat)) by (rewrite map_length, seq_length; exact Hi). rewrite (map_nth g), seq_nth by exact Hi. unfold g. cbn [Nat.add]. rewrite map_map.
    rewrite (nth_indep _ 0 (fmt (nth i [] 0))) by (rewrite map_length; exact Hj). rewrite (map_nth (fun x => fmt (nth i x 0))). reflexivity.
  - left. cbn [bind]. auto.
  - right. cbn [bind]. rewrite EM. cbn [bind]. eexists. split; [reflexivity|]. split; [reflexivity|discriminate].
Qed.

(** ** What is calibrated *)
Lemma two_cols_length rows : List.length (two_cols rows) = List.length rows.
Proof. apply map_length. Qed.

(** From a profile with half space alone: one parameter set per layer, with usable
    values, and the given strengths if there are any. *)
Theorem C98_profile_only : forall f now fmt rows t k, with_halfspace rows -> ready_profile (two_cols rows) ->
  calib_init (Some rows) NoCurves t = Ok k -> t <> BadTmax ->
  exists ds, calib_fit f now fmt k false None None = Ok (ds, None) /\ List.length ds = prof_layers rows /\
    (t = NoTmax -> forall j, (j < prof_layers rows)%nat -> exists ps, nth j ds [] = combine HH_keys ps /\ HH_usable ps) /\
    (forall v, t = SomeTmax v -> forall j, (j < prof_layers rows)%nat -> dget "Tmax" (nth j ds []) = Some (nth j v 0)).
Proof.
  intros f now fmt rows t k Hh Hr Hk Ht. apply C98_accepts_iff in Hk as (rows' & Er & Ek & Hc & HT). injection Er as <-.
  destruct Hc as [[_ Ec]|(cs & X & _)]; [|discriminate]. rewrite (layers_with rows Hh) in *.
  assert (Hout : exists ps, calib_columns f k = Ok ps /\ List.length ps = (List.length rows - 1)%nat /\
     (t = NoTmax -> forall j, (j < List.length rows - 1)%nat -> HH_usable (nth j ps [])) /\
     (forall v, t = SomeTmax v -> forall j, (j < List.length rows - 1)%nat -> nth 7 (nth j ps []) 0 = nth j v 0)).
  { unfold calib_columns. rewrite Ec, Ek. destruct HT as [[-> ->]|(v & -> & -> & Lv)].
    - destruct (C73_parameters_from_profile _ Hr) as (ps & rho & E & L & _ & H). rewrite two_cols_length in *. exists ps. split; [exact E|]. split; [exact L|]. split; [|intros v X; discriminate].
      intros _ j Hj. apply H. exact Hj.
    - destruct (C73_given_strengths_accepted _ v Hr) as [ps E]; [rewrite two_cols_length; exact Lv|]. destruct (C73_given_strengths _ _ _ E) as [L H]. exists ps. split; [exact E|]. split; [lia|]. split; [discriminate|].
      intros v' X j Hj. injection X as <-. apply H. lia. }
  destruct Hout as (ps & E & L & H1 & H2). pose proof (C98_fit_outcome f now fmt k false None None) as O. rewrite E in O. destruct O as [(X & _)|(file & EO & X & _)]; [discriminate|].
  rewrite (X eq_refl) in EO. eexists. split; [exact EO|]. split; [rewrite map_length; exact L|].
  assert (Hn : forall j, (j < List.length rows - 1)%nat -> nth j (map (combine HH_keys) ps) [] = combine HH_keys (nth j ps [])).
  { intros j Hj. rewrite (nth_indep _ [] (combine HH_keys (@nil R))) by (rewrite map_length, L; exact Hj). apply map_nth. }
  split.
  - intros Et j Hj. exists (nth j ps []). split; [apply Hn, Hj|apply H1; auto].
  - intros v Et j Hj. rewrite Hn by exact Hj. rewrite <- (H2 v Et j Hj).
    pose proof (calib_columns9 f k ps E) as F9. rewrite Forall_forall in F9. specialize (F9 (nth j ps []) ltac:(apply nth_In; lia)).
    destruct (nth j ps []) as [|a0 [|a1 [|a2 [|a3 [|a4 [|a5 [|a6 [|a7 [|a8 [|]]]]]]]]]]; try discriminate. reflexivity.
Qed.

(** Without a half space the constructor asks for one strength per row, the
    calibration for one less: with strengths it can never succeed; without them the
    deepest layer gets no parameters. *)
Theorem C98_no_halfspace_strengths_refuted : forall f now fmt rows v k save dir name, without_halfspace rows ->
  calib_init (Some rows) NoCurves (SomeTmax v) = Ok k ->
  calib_fit f now fmt k save dir name = Err ValueError.
Proof.
  intros f now fmt rows v k save dir name Hh Hk. apply C98_accepts_iff in Hk as (rows' & Er & Ek & Hc & HT). injection Er as <-.
  destruct Hc as [[_ Ec]|(cs & X & _)]; [|discriminate]. destruct HT as [[X _]|(v' & X & Ev & Lv)]; [discriminate|]. injection X as <-.
  rewrite (layers_without rows Hh) in Lv. unfold calib_fit, calib_columns. rewrite Ec, Ek, Ev. rewrite C73_strength_length; [reflexivity| |].
  - rewrite two_cols_length. destruct Hh as (top & h & -> & _). rewrite app_length in *. cbn [List.length] in *. lia.
  - destruct Hh as (top & h & -> & _). destruct top; discriminate.
Qed.
Theorem C98_no_halfspace_loses_a_layer : forall f now fmt rows, without_halfspace rows -> ready_profile (two_cols rows) ->
  exists k ds, calib_init (Some rows) NoCurves NoTmax = Ok k /\ calib_fit f now fmt k false None None = Ok (ds, None) /\
    S (List.length ds) = prof_layers rows.
Proof.
  intros f now fmt rows Hh Hr. exists (mkcalib rows None None). destruct (C73_parameters_from_profile _ Hr) as (ps & rho & E & L & _).
  pose proof (C98_fit_outcome f now fmt (mkcalib rows None None) false None None) as O. unfold calib_columns in O. cbn [k_curves k_rows k_Tmax] in O. rewrite E in O.
  destruct O as [(X & _)|(file & EO & X & _)]; [discriminate|]. rewrite (X eq_refl) in EO. eexists. split; [reflexivity|]. split; [exact EO|].
  rewrite map_length, L, two_cols_length, (layers_without rows Hh). destruct Hr as [H2 _]. rewrite two_cols_length in H2. lia.
Qed.

(** Curves: layer [j] is fitted to the curve whose number is the material number
    of layer [j] in the profile; when the profile numbers its materials 1, 2, 3,
    ... that is curve [j] ([mu] the identity).  Strains reach the fit as ratios,
    not per cent; curves of the greatest length reach it sample by sample, others
    through interpolated samples. *)
Definition materials (rows : list (list R)) (mu : nat -> nat) : Prop :=
  forall j, (j < List.length rows - 1)%nat -> nth 4 (nth j rows []) 0 = INR (S (mu j)).
Definition positive_soil (rows : list (list R)) : Prop :=
  forall j, (j < List.length rows - 1)%nat -> 0 < nth 0 (nth j rows []) 0 /\ 0 < nth 1 (nth j rows []) 0 /\ 0 < nth 3 (nth j rows []) 0.

Lemma Int_part_INR n : Int_part (INR n) = Z.of_nat n.
Proof.
  unfold Int_part. rewrite INR_IZR_INZ. rewrite <- (tech_up (IZR (Z.of_nat n)) (Z.of_nat n + 1)); [lia| |]; rewrite plus_IZR; lra.
Qed.
Lemma removelast_nth {A} (l : list A) d j : (j < List.length l - 1)%nat -> nth j (removelast l) d = nth j l d.
Proof.
  revert j. induction l as [|a l IH]; intros j Hj; [cbn in Hj; lia|]. destruct l as [|b l]; [cbn in Hj; lia|]. cbn [removelast]. destruct j as [|j]; [reflexivity|].
  cbn [nth]. change (nth j (removelast (b :: l)) d = nth j (b :: l) d). apply IH. cbn in *. lia.
Qed.
Lemma removelast_len {A} (l : list A) : List.length (removelast l) = (List.length l - 1)%nat.
Proof. induction l as [|a l IH]; [reflexivity|]. destruct l as [|b l]; [reflexivity|]. cbn [removelast List.length] in *. lia. Qed.
Lemma removelast_map {A B} (f : A -> B) l : removelast (map f l) = map f (removelast l).
Proof. induction l as [|a l IH]; [reflexivity|]. destruct l as [|b l]; [reflexivity|]. cbn [map removelast] in *. f_equal. exact IH. Qed.

Lemma mats_nth rows mu j : materials rows mu -> (j < List.length rows - 1)%nat -> nth j (snd (rho_mats rows)) 0%nat = S (mu j).
Proof.
  intros Hm Hj. cbn [snd rho_mats]. set (g := fun r : list R => Z.to_nat (Int_part (nth 4 r 0))).
  rewrite (nth_indep _ 0%nat (g [])) by (rewrite map_length, removelast_len; exact Hj). rewrite (map_nth g), removelast_nth by exact Hj. unfold g. rewrite (Hm j Hj), Int_part_INR. lia.
Qed.
Lemma rho_nth rows j : (j < List.length rows - 1)%nat -> nth j (fst (rho_mats rows)) 0 = nth 3 (nth j rows []) 0.
Proof.
  intros Hj. cbn [fst rho_mats]. set (g := fun r : list R => nth 3 r 0).
  rewrite (nth_indep _ 0 (g [])) by (rewrite map_length, removelast_len; exact Hj). rewrite (map_nth g), removelast_nth by exact Hj. reflexivity.
Qed.

Theorem C98_curves : forall f now fmt rows mu cs m k, with_halfspace rows -> (2 <= List.length rows)%nat -> positive_soil rows ->
  materials rows mu -> (forall j, (j < List.length rows - 1)%nat -> (mu j < List.length cs)%nat) ->
  longest m cs -> Forall ordered cs -> (forall c, In c cs -> (List.length c < m)%nat -> 0 < fst (nth 0 c (0, 0))) ->
  (forall pts, List.length pts = m -> exists gr s beta, f pts = Ok (gr, s, beta) /\ 0 < gr /\ 0 < s /\ 0 < beta) ->
  calib_init (Some rows) (SomeCurves cs) NoTmax = Ok k ->
  exists ds, calib_fit f now fmt k false None None = Ok (ds, None) /\ List.length ds = prof_layers rows /\
    forall j, (j < prof_layers rows)%nat -> exists ps pts, nth j ds [] = combine HH_keys ps /\ HH_usable ps /\
      nth 5 ps 0 = nth 3 (nth j rows []) 0 * nth 1 (nth j rows []) 0 ^ 2 /\
      f pts = Ok (nth 2 ps 0, nth 4 ps 0, nth 3 ps 0) /\ List.length pts = m /\
      (List.length (nth (mu j) cs []) = m -> pts = map (fun p => (fst p / 100, snd p)) (nth (mu j) cs [])) /\
      (forall i, (i < m)%nat -> pl_value (nth (mu j) cs []) (100 * fst (nth i pts (0, 0))) (snd (nth i pts (0, 0)))).
Proof.
  intros f now fmt rows mu cs m k Hh H2 Hpos Hmu Hb Hlong Hord Hfirst Hf Hk.
  apply C98_accepts_iff in Hk as (rows' & Er & Ek & Hc & HT). injection Er as <-.
  destruct Hc as [[X _]|(cs' & X & Ec & Lc)]; [discriminate|]. injection X as <-. destruct HT as [[_ Et]|(v & X & _)]; [|discriminate].
  rewrite (layers_with rows Hh) in *. set (n := (List.length rows - 1)%nat) in *.
  destruct (C97_layout KG 1 cs m Hlong Hord Hfirst) as (M & EM & LM & FM & HM).
  destruct (rho_mats rows) as [rho mats] eqn:Erm.
  assert (Lrho : List.length rho = n) by (change rho with (fst (rho, mats)); rewrite <- Erm; cbn [fst rho_mats]; rewrite map_length; apply removelast_len).
  assert (Lmats : List.length mats = n) by (change mats with (snd (rho, mats)); rewrite <- Erm; cbn [snd rho_mats]; rewrite map_length; apply removelast_len).
  assert (Nm : forall j, (j < n)%nat -> nth j mats 0%nat = S (mu j)) by (intros j Hj; change mats with (snd (rho, mats)); rewrite <- Erm; apply mats_nth; assumption).
  assert (Nr : forall j, (j < n)%nat -> nth j rho 0 = nth 3 (nth j rows []) 0) by (intros j Hj; change rho with (fst (rho, mats)); rewrite <- Erm; apply rho_nth; assumption).
  assert (Hcol : forall q col, (q < List.length cs)%nat -> List.length (material_column M (S q) col) = m) by (intros; unfold material_column; rewrite map_length; exact LM).
  set (data := fun q => combine (map (fun g => g / 100) (material_column M (S q) 0)) (material_column M (S q) 1)).
  assert (Ldata : forall q, List.length (data q) = m) by (intros q; unfold data, material_column; rewrite combine_length, !map_length, LM; lia).
  assert (Ndata : forall q i, (i < m)%nat -> nth i (data q) (0, 0) = (at_cell M i (4 * q) / 100, at_cell M i (4 * q + 1))).
  { intros q i Hi. unfold data, material_column. rewrite combine_nth by (rewrite !map_length; reflexivity). unfold at_cell. rewrite map_map. f_equal.
    - etransitivity; [apply (nth_map_at (fun x : list R => nth ((S q - 1) * 4 + 0) x 0 / 100) []); lia|]. cbv beta. replace ((S q - 1) * 4 + 0)%nat with (4 * q)%nat by lia. reflexivity.
    - etransitivity; [apply (nth_map_at (fun x : list R => nth ((S q - 1) * 4 + 1) x 0) []); lia|]. cbv beta. replace ((S q - 1) * 4 + 1)%nat with (4 * q + 1)%nat by lia. reflexivity. }
  destruct (C74_material_number_selects_the_curve f (two_cols rows) rho mats (4 * List.length cs) M) as (ps & Eps & Lps & Hps).
  - rewrite two_cols_length. exact H2.
  - unfold two_cols. rewrite removelast_map. apply Forall_map, Forall_forall. intros r Hr. apply (In_nth _ _ []) in Hr as (j & Hj & <-). rewrite removelast_len in Hj. rewrite removelast_nth by exact Hj. cbn [fst snd]. destruct (Hpos j Hj) as (A & B & _). auto.
  - rewrite two_cols_length. exact Lrho.
  - rewrite two_cols_length. exact Lmats.
  - apply Forall_forall. intros r Hr. apply (In_nth _ _ 0) in Hr as (j & Hj & <-). rewrite Nr by lia. apply Hpos. unfold n in *; lia.
  - exact FM.
  - apply Forall_forall. intros r Hr. apply (In_nth _ _ 0%nat) in Hr as (j & Hj & <-). rewrite Nm by lia. unfold material_ok. specialize (Hb j ltac:(lia)). lia.
  - intros q Hq. apply (In_nth _ _ 0%nat) in Hq as (j & Hj & <-). rewrite Nm by lia. apply Hf. apply (Ldata (mu j)).
  - rewrite two_cols_length in *. fold n in Lps, Hps.
    assert (E : calib_columns f k = Ok ps) by (unfold calib_columns; rewrite Ec, EM; cbn [bind]; rewrite Ek, Erm, Et; exact Eps).
    pose proof (C98_fit_outcome f now fmt k false None None) as O. rewrite E in O. destruct O as [(X & _)|(file & EO & X & _)]; [discriminate|]. rewrite (X eq_refl) in EO.
    eexists. split; [exact EO|]. split; [rewrite map_length; exact Lps|]. intros j Hj. destruct (Hps j Hj) as (U & F & G). rewrite Nm in F by exact Hj.
    exists (nth j ps []), (data (mu j)). destruct (HM (mu j) (Hb j Hj)) as (HMa & HMb & _).
    split; [rewrite (nth_indep _ [] (combine HH_keys (@nil R))) by (rewrite map_length, Lps; exact Hj); apply map_nth|]. split; [exact U|].
    split; [rewrite G, Nr by exact Hj; f_equal; f_equal; unfold vs_of, two_cols; rewrite map_map; apply (nth_map_at (fun x : list R => snd (nth 0 x 0, nth 1 x 0)) []); unfold n in Hj; lia|]. split; [exact F|]. split; [apply Ldata|]. split.
    + intros EL. apply (nth_ext _ _ (0, 0) (0, 0)); [rewrite map_length, Ldata, EL; reflexivity|]. rewrite Ldata. intros i Hi. rewrite Ndata by exact Hi.
      specialize (HMb EL i Hi). cbn [value_col] in HMb. etransitivity; [|symmetry; apply (nth_map_at (fun p : R * R => (fst p / 100, snd p)) (0, 0)); rewrite EL; exact Hi]. unfold vcurve in *. rewrite <- HMb. reflexivity.
    + intros i Hi. rewrite Ndata by exact Hi. cbn [fst snd]. destruct (HMa i Hi) as (_ & _ & P). replace (100 * (at_cell M i (4 * mu j) / 100)) with (at_cell M i (4 * mu j)) by lra. exact P.
Qed.

(** ** Instances *)
Definition demo_rows : list (list R) := [[10; 200; 1/100; 1800; 1]; [5; 300; 1/100; 1900; 2]; [0; 800; 1/100; 2000; 0]].
Definition demo_curves : list vcurve := [[(1/10, 1); (1, 1/2); (10, 1/10)]; [(1/10, 1); (10, 1/2)]].
Example C98_instance : with_halfspace demo_rows /\ positive_soil demo_rows /\ materials demo_rows (fun j => j) /\
  longest 3 demo_curves /\ Forall ordered demo_curves /\
  (exists k, calib_init (Some demo_rows) (SomeCurves demo_curves) NoTmax = Ok k) /\
  without_halfspace [[10; 200; 1/100; 1800; 1]; [5; 300; 1/100; 1900; 2]] /\
  (exists k, calib_init (Some [[10; 200; 1/100; 1800; 1]; [5; 300; 1/100; 1900; 2]]) NoCurves (SomeTmax [50; 60]) = Ok k).
Proof.
  assert (L1 : with_halfspace demo_rows) by (exists [[10; 200; 1/100; 1800; 1]; [5; 300; 1/100; 1900; 2]], [0; 800; 1/100; 2000; 0]; split; reflexivity).
  assert (L2 : without_halfspace [[10; 200; 1/100; 1800; 1]; [5; 300; 1/100; 1900; 2]]) by (exists [[10; 200; 1/100; 1800; 1]], [5; 300; 1/100; 1900; 2]; split; [reflexivity|cbn; lra]).
  split; [exact L1|]. split; [intros [|[|[|j]]] Hj; cbn in *; lra || lia|]. split; [intros [|[|[|j]]] Hj; cbn in *; lra || lia|].
  destruct C97_instance as (A & B & _). split; [exact A|]. split; [exact B|].
  split; [|split; [exact L2|]].
  - exists (mkcalib demo_rows (Some demo_curves) None). apply C98_accepts_iff. exists demo_rows. split; [reflexivity|]. split; [reflexivity|]. split; [|left; split; reflexivity]. right. eexists. split; [reflexivity|]. split; [reflexivity|]. rewrite (layers_with _ L1). reflexivity.
  - exists (mkcalib [[10; 200; 1/100; 1800; 1]; [5; 300; 1/100; 1900; 2]] None (Some [50; 60])). apply C98_accepts_iff. eexists. split; [reflexivity|]. split; [reflexivity|]. split; [left; split; reflexivity|]. right. eexists. split; [reflexivity|]. split; [reflexivity|]. rewrite (layers_without _ L2). reflexivity.
Qed.
