(** Further theorems about the HH calibration (C47, C49, C73, C74). *)
From Coq Require Import Reals List Bool ZArith Lia Lra.
From Verif Require Import Base M_generic P_generic M_profile P_profile M_soil P_soil Prop_soil M_motion M_interp P_interp M_hhcal P_hhcal Prop_hhcal.
Import ListNotations.
Open Scope R_scope.

(** Rock strength: Mohr-Coulomb on the circle through the vertical and the horizontal stress,
    whichever is larger; with 20 % added for the rate of loading. *)
Theorem C47_strength_of_rock : forall phi v o sv k, 760 < v ->
  let sh := k * sv in
  strength_at phi v o sv k = 12/10 * ((sv + sh) / 2 - Rabs (sv - sh) / 2 * sin (deg2rad phi)) * tan (deg2rad phi).
Proof.
  intros phi v o sv k Hv sh. unfold strength_at. destruct (Rleb_spec v 760) as [N|N]; [lra|]. fold sh. cbv zeta.
  f_equal. f_equal. unfold Rmax, Rmin. destruct (Rle_dec sv sh) as [L|L].
  - rewrite Rabs_left1 by lra. f_equal; [lra|]. f_equal. lra.
  - rewrite Rabs_pos_eq by lra. f_equal.
Qed.
Example C47_strength_of_rock_instance : strength_at 30 800 1 100 1 = 12/10 * 100 * tan (deg2rad 30).
Proof. rewrite C47_strength_of_rock by lra. rewrite Rmult_1_l, Rminus_eq_0, Rabs_R0. field. Qed.

(** The transition strain is sought where the two stress laws are closest, the first such
    strain among equals. *)
Theorem C49_closest_approach : forall TM TF, length TM = length TF -> TM <> [] ->
  let c := crossover TM TF in let gap i := Rabs (nth i TM 0 - nth i TF 0) in
  (c < length TM)%nat /\ (forall i, (i < length TM)%nat -> gap c <= gap i) /\ (forall i, (i < c)%nat -> gap c < gap i).
Proof.
  intros TM TF HL HN c gap. set (l := map (fun v => Rabs (v - 0)) (zipw (fun a b => Rabs (a - b)) TM TF)).
  assert (LL : length l = length TM) by (unfold l; rewrite map_length; apply zipw_length, HL).
  assert (NL : l <> []) by (intros E; apply (f_equal (@length R)) in E; rewrite LL in E; destruct TM; [congruence|discriminate]).
  assert (NT : forall i, (i < length TM)%nat -> nth i l 0 = gap i).
  { intros i Hi. assert (Hi' : (i < length (zipw (fun a b => Rabs (a - b)) TM TF))%nat) by (rewrite zipw_length by exact HL; exact Hi).
    unfold l. rewrite (nth_indep _ 0 (Rabs (0 - 0))) by (rewrite map_length; exact Hi'). rewrite (map_nth (fun v => Rabs (v - 0))).
    rewrite (zipw_nth _ _ _ i 0 0) by auto. rewrite Rminus_0_r, Rabs_Rabsolu. reflexivity. }
  destruct (argmin_spec l NL) as (x & Hx & HF & HM). change (argmin l) with c in *.
  assert (Hc : (c < length TM)%nat) by (rewrite <- LL; apply nth_error_Some; congruence).
  apply nth_error_nth with (d := 0) in Hx. rewrite NT in Hx by exact Hc. split; [exact Hc|]. split.
  - intros i Hi. rewrite Hx, <- NT by exact Hi. apply (proj1 (Forall_forall _ _) HF), nth_In. lia.
  - intros i Hi. rewrite Hx, <- NT by lia. apply (HM i); [exact Hi|]. apply nth_error_nth'. lia.
Qed.
Example C49_closest_approach_instance : crossover [1; 5; 7] [4; 6; 6] = 1%nat.
Proof.
  destruct (C49_closest_approach [1; 5; 7] [4; 6; 6] eq_refl ltac:(discriminate)) as (A & B & D).
  set (c := crossover [1; 5; 7] [4; 6; 6]) in *. clearbody c. destruct c as [|[|[|c]]]; [|reflexivity| |cbn in A; lia].
  - specialize (B 1%nat ltac:(cbn; lia)). cbn in B. rewrite !Rabs_left1 in B by lra. lra.
  - specialize (D 1%nat ltac:(lia)). cbn in D. rewrite (Rabs_left1 (5 - 6)), Rabs_pos_eq in D by lra. lra.
Qed.

(** Strengths given by the user are the strengths of the parameter sets, layer by layer. *)
Lemma layer_params_strength x gr b s G T mu : nth 7 (layer_params x gr b s G T mu) 0 = T /\ nth 5 (layer_params x gr b s G T mu) 0 = G.
Proof. unfold layer_params. destruct (optimization_kernel _ gr b s G T mu) as [[a gt] d]. auto. Qed.
Theorem C73_given_strengths : forall p t ps, hh_param_from_profile p (Some t) = Ok ps ->
  length ps = length t /\ forall k, (k < length t)%nat -> nth 7 (nth k ps []) 0 = nth k t 0.
Proof.
  intros p t ps H. unfold hh_param_from_profile in H. apply bind_ok in H as (u & _ & H). apply bind_ok in H as (rho & _ & H).
  apply bind_ok in H as (st & _ & H). apply bind_ok in H as (T & ET & H). injection H as <-. cbn [strengths] in ET.
  destruct (Nat.eqb_spec (length t) (length st)) as [E|E]; [|discriminate]. injection ET as <-. split; [rewrite zipw_length by lia; lia|].
  intros k Hk. rewrite (zipw_nth _ _ _ k (0, 0, 0, 0, 0) 0) by lia. destruct (nth k st (0, 0, 0, 0, 0)) as [[[[v G] sv] o] kk]. cbn [darendeli_layer].
  apply layer_params_strength.
Qed.
(** Every such array of the right length is accepted, whatever its values. *)
Theorem C73_given_strengths_accepted : forall p t, ready_profile p -> length t = (length p - 1)%nat ->
  exists ps, hh_param_from_profile p (Some t) = Ok ps.
Proof.
  intros p t Hp HL. destruct (C73_parameters_from_profile p Hp) as (ps & rho & E & L & _). unfold hh_param_from_profile in E |- *.
  assert (LV : length (removelast (vs_of p)) = (length p - 1)%nat).
  { destruct Hp as (Hlen & _). destruct (exists_last (l := p)) as (p' & a & Ep); [destruct p; [cbn in Hlen; lia|discriminate]|].
    rewrite Ep. unfold vs_of. rewrite map_app. cbn [map]. rewrite removelast_app1, map_length, app_length. cbn. lia. }
  rewrite LV, HL, Nat.eqb_refl. cbn [bind] in E |- *. apply bind_ok in E as (r & -> & E). cbn [bind]. apply bind_ok in E as (st & -> & E). cbn [bind].
  cbn [strengths] in E |- *. apply bind_ok in E as (T & ET & E). injection ET as <-. injection E as <-.
  assert (LS : length st = (length p - 1)%nat) by (rewrite <- L; rewrite zipw_length; [reflexivity|rewrite map_length; reflexivity]).
  rewrite HL, LS, Nat.eqb_refl. cbn [bind]. eauto.
Qed.
Example C73_given_strengths_instance : exists ps, hh_param_from_profile [(10, 200); (0, 800)] (Some [50000]) = Ok ps /\ nth 7 (nth 0 ps []) 0 = 50000.
Proof.
  destruct (C73_given_strengths_accepted [(10, 200); (0, 800)] [50000] C73_instance eq_refl) as (ps & E). exists ps. split; [exact E|].
  apply (proj2 (C73_given_strengths _ _ _ E) 0%nat). cbn. lia.
Qed.

(** The same from curves. *)
Theorem C74_given_strengths : forall fit p extra c curves t ps, hh_param_from_curves fit p extra c curves (Some t) = Ok ps ->
  length ps = length t /\ forall k, (k < length t)%nat -> nth 7 (nth k ps []) 0 = nth k t 0.
Proof.
  intros fit p extra c curves t ps H. unfold hh_param_from_curves in H. apply bind_ok in H as ([rho mats] & _ & H).
  apply bind_ok in H as (u & _ & H). apply bind_ok in H as (st & _ & H). apply bind_ok in H as (T & ET & H). cbn [strengths] in ET.
  destruct (Nat.eqb_spec (length t) (length st)) as [E|E]; [|discriminate]. injection ET as <-.
  destruct (Nat.eqb _ _); [|discriminate]. revert ps H. set (E0 := expand_curves curves mats). clearbody E0.
  assert (A : forall j ps, curves_layers fit E0 j (combine st t) = Ok ps -> length ps = length t /\ forall k, (k < length t)%nat -> nth 7 (nth k ps []) 0 = nth k t 0); [|intros ps; apply A].
  revert st E. induction t as [|x t IH]; intros st E j ps H.
  - destruct st; [|discriminate]. injection H as <-. cbn. split; [reflexivity|intros; lia].
  - destruct st as [|s st]; [discriminate|]. cbn [combine curves_layers] in H. apply bind_ok in H as (p1 & E1 & H). apply bind_ok in H as (ps' & E2 & H). injection H as <-.
    destruct (IH st ltac:(cbn in E; lia) _ _ E2) as [L N]. cbn [length]. split; [lia|]. intros [|k] Hk; cbn [nth].
    + unfold curves_layer in E1. destruct s as [[[[v G] sv] o] kk]. apply bind_ok in E1 as ([[gr s] b] & _ & E1). injection E1 as <-. apply layer_params_strength.
    + apply N. lia.
Qed.
Example C74_given_strengths_instance : exists ps, hh_param_from_curves (fun _ => Ok (1/1000, 9/10, 1)) [(10, 200); (0, 800)] (Some ([1800], [1]%nat)) 4
    [[1/100; 1; 1/100; 0]; [1; 1/2; 1; 0]] (Some [70000]) = Ok ps /\ nth 7 (nth 0 ps []) 0 = 70000.
Proof.
  assert (S : exists st, soil_state [10] [200] [1800] = Ok st /\ length st = 1%nat).
  { unfold soil_state, calc_vertical_stress, last_res. cbn [rev app bind]. destruct (Reqb_spec 10 0) as [N|N]; [lra|]. cbn. eauto. }
  destruct S as (st & ES & LS).
  assert (E : exists ps, hh_param_from_curves (fun _ => Ok (1/1000, 9/10, 1)) [(10, 200); (0, 800)] (Some ([1800], [1]%nat)) 4
    [[1/100; 1; 1/100; 0]; [1; 1/2; 1; 0]] (Some [70000]) = Ok ps).
  { unfold hh_param_from_curves. cbn [thk_of vs_of map fst snd removelast bind length Nat.eqb]. rewrite ES. cbn [bind strengths length]. rewrite LS. cbn [Nat.eqb bind].
    destruct st as [|s [|]]; try discriminate. cbn [combine]. cbn [expanded_width fold_right Nat.min Nat.mul Nat.add Nat.sub Nat.eqb]. cbn [curves_layers curves_layer].
    destruct s as [[[[v G] sv] o] k]. cbn [curves_layer bind]. eauto. }
  destruct E as (ps & E). exists ps. split; [exact E|]. apply (proj2 (C74_given_strengths _ _ _ _ _ _ _ E) 0%nat). cbn. lia.
Qed.
