(** Figures: C109 figures and axes, C110 ground motions, C111 velocity profiles, C112 curves and spectra. *)
From Coq Require Import Reals List Bool ZArith Lia Lra String Psatz.
From Coquelicot Require Import Complex.
From Coq Require Import List.
From Verif Require Import P_unwrap.
From Verif Require Import Base M_generic M_profile M_vs_profile M_motion M_interp M_dft M_soil M_params M_curves M_signal M_linear M_amplify M_freqspec M_svm M_simlin M_results M_figures M_figres.
From Verif Require Import P_profile P_motion P_amplify Prop_freqspec Prop_profile P_figures.
Import ListNotations.
Open Scope string_scope.
Open Scope list_scope.
Open Scope R_scope.

(** ** C109 figures and axes *)

(** Axes belong to figures that exist. *)
Definition sound (c : canvas) : Prop := forall i s, nth_error (cv_axes c) i = Some s -> (ax_fig s < cv_figs c)%nat.
Definition owner (c : canvas) (a f : nat) : Prop := exists s, nth_error (cv_axes c) a = Some s /\ ax_fig s = f.

(** Which figure and which axes are used, and how many of them are made. *)
Theorem C109_choice : forall fig ax c,
  exists f a, snd (fig_ax fig ax c) = Ok (f, a) /\
    match fig with
    | Some g => f = g /\ cv_figs (fst (fig_ax fig ax c)) = cv_figs c
    | None => f = cv_figs c /\ cv_figs (fst (fig_ax fig ax c)) = S (cv_figs c)
    end /\
    match ax with
    | Some b => a = b /\ cv_axes (fst (fig_ax fig ax c)) = cv_axes c
    | None => a = List.length (cv_axes c) /\ exists s, cv_axes (fst (fig_ax fig ax c)) = cv_axes c ++ [s] /\ ax_fig s = f /\ ax_lines s = [] /\ ax_shown s = true
    end.
Proof.
  intros fig ax c. destruct fig as [g|], ax as [b|]; cbn; do 2 eexists; (split; [reflexivity|]); (split; [split; reflexivity|]);
    (split; [reflexivity|]); try reflexivity; eexists; (split; [reflexivity|]); cbn; auto.
Qed.

(** The returned axes are in the returned figure unless axes were given without their figure: axes given alone end
    up beside a new, empty figure. *)
Theorem C109_same_figure : forall fig ax c f a,
  sound c -> (forall g, fig = Some g -> (g < cv_figs c)%nat) -> (forall b, ax = Some b -> (b < List.length (cv_axes c))%nat) ->
  snd (fig_ax fig ax c) = Ok (f, a) ->
  (owner (fst (fig_ax fig ax c)) a f <-> (ax = None \/ exists g b, fig = Some g /\ ax = Some b /\ owner c b g)).
Proof.
  intros fig ax c f a Hs Hf Ha E. destruct fig as [g|], ax as [b|]; cbn in E; injection E as <- <-; unfold owner; cbn.
  - split; [intros H; right; exists g, b; auto|]. intros [H|(g' & b' & E1 & E2 & H)]; [discriminate|]. injection E1 as <-. injection E2 as <-. exact H.
  - split; [auto|]. intros _. rewrite nth_error_app2, Nat.sub_diag by lia. cbn. eexists. split; reflexivity.
  - split.
    + intros (s & E & H). apply Hs in E. lia.
    + intros [H|(g' & b' & E1 & _)]; discriminate.
  - split; [auto|]. intros _. rewrite nth_error_app2, Nat.sub_diag by lia. cbn. eexists. split; reflexivity.
Qed.

(** No drawing function changes axes other than those it was given, nor the number of a figure, whether it
    succeeds or fails; [curves_plot] does not even use given axes when no figure is given. *)
Theorem C109_others_untouched : forall c i s, nth_error (cv_axes c) i = Some s ->
  (forall src u fig ax t, ax <> Some i -> nth_error (cv_axes (fst (plot_motion src u fig ax t c))) i = Some s) /\
  (forall h m file u fig ax, ax <> Some i -> nth_error (cv_axes (fst (gm_plot h m file u fig ax c))) i = Some s) /\
  (forall p fig ax t l d, ax <> Some i -> nth_error (cv_axes (fst (plot_Vs_profile p fig ax t l d c))) i = Some s) /\
  (forall h o file kw fig ax l d, ax <> Some i -> nth_error (cv_axes (fst (vs_plot h o file kw fig ax l d c))) i = Some s) /\
  (forall h o file vs z, nth_error (cv_axes (fst (plot_queried h o file vs z c))) i = Some s) /\
  (forall h v t kw fig ax, ax <> Some i -> nth_error (cv_axes (fst (svm_plot h v t kw fig ax c))) i = Some s) /\
  (forall h v t p l, nth_error (cv_axes (fst (plot_additional h v t p l c))) i = Some s) /\
  (forall h cu b fig ax t y l, ax <> Some i -> nth_error (cv_axes (fst (curve_plot h cu b fig ax t y l c))) i = Some s) /\
  (forall h cs b fig ax t y l, (fig = None \/ ax <> Some i) -> nth_error (cv_axes (fst (curves_plot h cs b fig ax t y l c))) i = Some s) /\
  (forall sp file b fig ax l, ax <> Some i -> nth_error (cv_axes (fst (fs_plot sp file b fig ax l c))) i = Some s) /\
  (forall si so fr am sm ph fig l1 l2 l3 l4, nth_error (cv_axes (fst (plot_site_amp si so fr am sm ph fig l1 l2 l3 l4 c))) i = Some s) /\
  (forall h r, nth_error (cv_axes (fst (results_figures h r c))) i = Some s).
Proof.
  intros c i s E. assert (Hi : (i < List.length (cv_axes c))%nat) by (apply nth_error_Some; congruence).
  assert (K : forall A who (m : draws A) Q, safe who (List.length (cv_axes c)) m Q -> who <> Some i -> nth_error (cv_axes (fst (m c))) i = Some s).
  { intros A who m Q Hm Hw. destruct (Hm c (le_n _)) as (_ & _ & H & _). rewrite H by auto. exact E. }
  repeat match goal with |- _ /\ _ => split end; intros.
  - eapply K; [apply plot_motion_safe|assumption].
  - eapply K; [apply gm_plot_safe|assumption].
  - eapply K; [apply plot_Vs_safe|assumption].
  - eapply K; [apply vs_plot_safe|assumption].
  - eapply K; [apply plot_queried_safe|discriminate].
  - eapply K; [apply svm_plot_safe|assumption].
  - eapply K; [apply plot_additional_safe|discriminate].
  - eapply K; [apply curve_plot_safe|assumption].
  - eapply K; [apply curves_plot_safe|]. destruct fig; [|discriminate]. destruct H as [H|H]; [discriminate|exact H].
  - eapply K; [apply fs_plot_safe|assumption].
  - eapply K; [apply site_amp_safe|discriminate].
  - eapply K; [apply results_figures_safe|discriminate].
Qed.

Example C109_instance : exists c, sound c /\ snd (fig_ax None (Some 0%nat) c) = Ok (1%nat, 0%nat) /\ ~ owner (fst (fig_ax None (Some 0%nat) c)) 0 1.
Proof.
  exists (mkcanvas 1 [empty_axes 0]). split.
  - intros [|[|i]] s E; cbn in E; try discriminate. injection E as <-. cbn. lia.
  - split; [reflexivity|]. intros (s & E & H). cbn in E. injection E as <-. cbn in H. discriminate.
Qed.

(** ** C110 ground motions *)

(** n / 40 to the nearest integer, halves to the even one. *)
Definition fortieth (n : nat) : nat :=
  let q := (n / 40)%nat in let r := (n mod 40)%nat in
  if (r <? 20)%nat then q else if (20 <? r)%nat then S q else if Nat.even q then q else S q.
Lemma int_part_div n : Int_part (INR n / 40) = Z.of_nat (n / 40).
Proof.
  pose proof (P_profile.Int_part_spec (INR n / 40)) as I.
  pose proof (Nat.div_mod n 40 ltac:(lia)) as E. pose proof (Nat.mod_upper_bound n 40 ltac:(lia)) as B.
  assert (E' : INR n = 40 * INR (n / 40) + INR (n mod 40)).
  { rewrite E at 1. rewrite plus_INR, mult_INR. f_equal. f_equal. cbn. lra. }
  assert (B' : 0 <= INR (n mod 40) < 40).
  { split; [apply pos_INR|]. apply lt_INR in B. replace (INR 40) with 40 in B by (cbn; lra). exact B. }
  rewrite INR_IZR_INZ in E'. rewrite (INR_IZR_INZ (n / 40)) in E'. rewrite INR_IZR_INZ in I.
  set (z := Int_part (IZR (Z.of_nat n) / 40)) in *. rewrite INR_IZR_INZ. fold z.
  assert (z < Z.of_nat (n / 40) + 1)%Z by (apply lt_IZR; rewrite plus_IZR; lra).
  assert (Z.of_nat (n / 40) < z + 1)%Z by (apply lt_IZR; rewrite plus_IZR; lra). lia.
Qed.
Lemma rint_fortieth n : Z.to_nat (rint (INR n / 40)) = fortieth n.
Proof.
  unfold rint. rewrite int_part_div. rewrite <- INR_IZR_INZ.
  pose proof (Nat.div_mod n 40 ltac:(lia)) as E. pose proof (Nat.mod_upper_bound n 40 ltac:(lia)) as B.
  assert (E' : INR n / 40 - INR (n / 40) = INR (n mod 40) / 40).
  { assert (INR n = 40 * INR (n / 40) + INR (n mod 40)); [|lra].
    rewrite E at 1. rewrite plus_INR, mult_INR. f_equal. f_equal. cbn. lra. }
  rewrite E'. unfold fortieth. set (q := (n / 40)%nat) in *. set (r := (n mod 40)%nat) in *. clearbody q r.
  assert (H20 : INR 20 = 20) by (cbn; lra).
  destruct (Nat.ltb_spec r 20) as [H|H].
  - apply lt_INR in H. rewrite (proj2 (Rltb_true _ _)) by lra. apply Nat2Z.id.
  - rewrite (proj2 (Rltb_false _ _)) by (apply le_INR in H; lra).
    destruct (Nat.ltb_spec 20 r) as [K|K].
    + rewrite (proj2 (Rltb_true _ _)) by (apply lt_INR in K; lra). lia.
    + rewrite (proj2 (Rltb_false _ _)) by (apply le_INR in K; lra).
      assert (Ev : Z.even (Z.of_nat q) = Nat.even q).
      { clear. destruct (Nat.even q) eqn:N.
        - apply Nat.even_spec in N as (k & ->). apply Z.even_spec. exists (Z.of_nat k). lia.
        - destruct (Z.even (Z.of_nat q)) eqn:M; [|reflexivity]. apply Z.even_spec in M as (k & M).
          assert (Nat.even q = true); [|congruence]. apply Nat.even_spec. exists (Z.to_nat k). lia. }
      rewrite Ev. destruct (Nat.even q); [apply Nat2Z.id|lia].
Qed.

(** The first sample of largest absolute value. *)
Definition first_peak (a : list R) (p : nat) : Prop :=
  (p < List.length a)%nat /\ (forall x, In x a -> Rabs x <= Rabs (nth p a 0)) /\ (forall j, (j < p)%nat -> Rabs (nth j a 0) < Rabs (nth p a 0)).
Lemma argmax_from_spec l : forall pre best ib,
  (ib < List.length pre)%nat -> nth ib pre 0 = best -> (forall x, In x pre -> x <= best) -> (forall j, (j < ib)%nat -> nth j pre 0 < best) ->
  let m := argmax_from best ib (List.length pre) l in
  (m < List.length (pre ++ l))%nat /\ (forall x, In x (pre ++ l) -> x <= nth m (pre ++ l) 0) /\ (forall j, (j < m)%nat -> nth j (pre ++ l) 0 < nth m (pre ++ l) 0).
Proof.
  induction l as [|y l IH]; intros pre best ib H1 H2 H3 H4; cbn [argmax_from].
  - rewrite app_nil_r. cbv zeta. rewrite H2. auto.
  - replace (pre ++ y :: l) with ((pre ++ [y]) ++ l) by (rewrite <- app_assoc; reflexivity).
    replace (S (List.length pre)) with (List.length (pre ++ [y])) by (rewrite app_length; cbn; lia).
    destruct (Rltb_spec best y) as [Hy|Hy].
    + apply IH.
      * rewrite app_length. cbn. lia.
      * rewrite app_nth2 by lia. rewrite Nat.sub_diag. reflexivity.
      * intros x Hx. apply in_app_or in Hx as [Hx|[<-|[]]]; [apply H3 in Hx; lra|lra].
      * intros j Hj. rewrite app_nth1 by lia. assert (nth j pre 0 <= best); [apply H3, nth_In; lia|lra].
    + apply IH.
      * rewrite app_length. cbn. lia.
      * rewrite app_nth1 by lia. exact H2.
      * intros x Hx. apply in_app_or in Hx as [Hx|[<-|[]]]; [apply H3 in Hx; lra|lra].
      * intros j Hj. rewrite app_nth1 by lia. apply H4, Hj.
Qed.
Lemma argmax_peak a : a <> [] -> first_peak a (argmax (map Rabs a)).
Proof.
  intros H. destruct a as [|x a]; [congruence|]. cbn [map argmax].
  destruct (argmax_from_spec (map Rabs a) [Rabs x] (Rabs x) 0) as (A & B & C).
  - cbn. lia.
  - reflexivity.
  - intros y [<-|[]]. lra.
  - intros j Hj. lia.
  - cbn [List.length] in *. change ([Rabs x] ++ map Rabs a) with (map Rabs (x :: a)) in *.
    set (m := argmax_from (Rabs x) 0 1 (map Rabs a)) in *.
    assert (N : forall j, (j < List.length (x :: a))%nat -> nth j (map Rabs (x :: a)) 0 = Rabs (nth j (x :: a) 0)).
    { intros j Hj. rewrite (nth_indep _ 0 (Rabs 0)) by (rewrite map_length; exact Hj). apply map_nth. }
    rewrite map_length in A. split; [exact A|]. split.
    + intros y Hy. rewrite <- N by exact A. apply B, in_map, Hy.
    + intros j Hj. rewrite <- !N by (try exact A; lia). apply C, Hj.
Qed.
Lemma first_peak_unique a p q : first_peak a p -> first_peak a q -> p = q.
Proof.
  intros (P1 & P2 & P3) (Q1 & Q2 & Q3). destruct (Nat.lt_trichotomy p q) as [H|[H|H]]; auto.
  - specialize (Q3 p H). specialize (P2 (nth q a 0) (nth_In _ _ Q1)). lra.
  - specialize (P3 q H). specialize (Q2 (nth p a 0) (nth_In _ _ P1)). lra.
Qed.

(** What is drawn for a motion with at least two samples, in m or cm, whose peak is not too close to the end. *)
Definition shifted_sum (s : signal) (x : list R) (k : nat) : R := (nth 1 (times s) 0 - nth 0 (times s) 0) * rsum (firstn (S k) x).
Definition known_unit (u : string) : Prop := u = "m" \/ u = "cm".
Lemma known_unit_dec u : (String.eqb u "m" || String.eqb u "cm") = true <-> known_unit u.
Proof. unfold known_unit. rewrite orb_true_iff, !String.eqb_eq. tauto. Qed.

(** The parts of the computation. *)
Lemma parts (s : signal) : (2 <= List.length s)%nat -> exists pga v u lo hi p,
  max_abs (vals s) = Ok pga /\ num_int s = Ok (v, u) /\ rmin1 (times s) = Ok lo /\ rmax1 (times s) = Ok hi /\
  argmax (map Rabs (vals s)) = p /\ first_peak (vals s) p /\ pga = Rabs (nth p (vals s) 0) /\
  List.length v = List.length s /\ List.length u = List.length s /\ least (times s) lo /\ greatest (times s) hi /\
  (forall k, (k < List.length s)%nat -> nth k (vals v) 0 = shifted_sum s (vals s) k) /\
  (forall k, (k < List.length s)%nat -> nth k (vals u) 0 = shifted_sum s (vals v) k).
Proof.
  intros H. assert (Ne : vals s <> []) by (destruct s; [cbn in H; lia|discriminate]).
  assert (Nt : times s <> []) by (destruct s; [cbn in H; lia|discriminate]).
  destruct (max_abs_ok _ Ne) as (pga & E1 & _ & B & W). destruct (num_int_spec s H) as (v & u & E2 & _ & _ & L1 & L2 & H1 & H2).
  destruct (extremes_exist _ Nt) as (lo & hi & E3 & E4). exists pga, v, u, lo, hi, (argmax (map Rabs (vals s))).
  pose proof (argmax_peak _ Ne) as P. repeat (split; [eassumption || reflexivity|]).
  split.
  - destruct P as (P1 & P2 & _). destruct W as (x & Hx & ->). apply Rle_antisym; [apply P2, Hx|apply B, nth_In, P1].
  - split; [exact L1|]. split; [exact L2|]. split; [apply rmin1_least, E3|]. split; [apply rmax1_greatest, E4|]. split; [exact H1|exact H2].
Qed.

Lemma run_fig_ax fig ax : exists k, forall c, fig_ax fig ax c = (k c) /\ exists f a, snd (k c) = Ok (f, a).
Proof. exists (fig_ax fig ax). intros c. split; [reflexivity|]. destruct (C109_choice fig ax c) as (f & a & E & _). eauto. Qed.

Definition hide (a : nat) (l : list axes) : list axes :=
  change a (fun s => mkaxes (ax_fig s) (ax_lines s) (ax_texts s) (ax_title s) (ax_ylabel s) (ax_xlim s) (ax_ylim s) false) l.

Lemma nth_vals_len {A} (l : list A) i d : (i < List.length l)%nat -> get l i = Ok (nth i l d).
Proof. apply get_ok. Qed.

Lemma plot_motion_run s unit fig ax title c f a c1 :
  (2 <= List.length s)%nat -> fig_ax fig ax c = (c1, Ok (f, a)) ->
  forall p, first_peak (vals s) p ->
  let l := hide a (cv_axes c1) in
  let t := times s in let y := vals s in
  let peak := [mkline t y None; mkline [nth p t 0] [nth p y 0] None] in
  let k := (p + fortieth (List.length s))%nat in
  let title' := match title with Some t => t | None => "Ground motion" end in
  exists v u lo hi, num_int s = Ok (v, u) /\ least t lo /\ greatest t hi /\
  plot_motion (MArray s) unit fig ax title c =
    if negb (String.eqb unit "m" || String.eqb unit "cm") then (mkcanvas (cv_figs c1) l, Err ValueError)
    else if (k <? List.length s)%nat then
      (mkcanvas (cv_figs c1) (l ++ [mkaxes f peak [(nth k t 0, nth p y 0, Rabs (nth p y 0))] (Some title') None (Some (lo, hi)) None true;
                                    mkaxes f [mkline t (vals v) None] [] None None (Some (lo, hi)) None true;
                                    mkaxes f [mkline t (vals u) None] [] None None (Some (lo, hi)) None true]),
       Ok (f, (List.length (cv_axes c1), S (List.length (cv_axes c1)), S (S (List.length (cv_axes c1))))))
    else (mkcanvas (cv_figs c1) (l ++ [mkaxes f peak [] None None None None true]), Err IndexError).
Proof.
  intros Hn Ef p Hp l t y peak k title'.
  destruct (parts s Hn) as (pga & v & u & lo & hi & p' & E1 & E2 & E3 & E4 & E5 & E6 & E7 & L1 & L2 & M1 & M2 & _).
  rewrite (first_peak_unique _ _ _ E6 Hp) in *. clear p' E6.
  exists v, u, lo, hi. split; [exact E2|]. split; [exact M1|]. split; [exact M2|].
  assert (Lt : List.length t = List.length s) by apply map_length. assert (Ly : List.length y = List.length s) by apply map_length.
  assert (Lv : List.length (vals v) = List.length s) by (unfold vals; rewrite map_length; exact L1).
  assert (Lu : List.length (vals u) = List.length s) by (unfold vals; rewrite map_length; exact L2).
  assert (Pl : (p < List.length s)%nat) by (destruct Hp as (Hp & _); fold y in Hp; lia).
  assert (Ll : List.length l = List.length (cv_axes c1)) by apply change_length.
  change (argmax (map Rabs y) = p) in E5.
  unfold plot_motion. cbv zeta. cbn [titled]. unfold and_then at 1. unfold lift at 1. cbn [fst snd]. fold t y. rewrite !E5.
  unfold and_then at 1. unfold lift at 1. unfold y at 1. rewrite E1.
  unfold and_then at 1. unfold lift at 1. rewrite E2.
  unfold and_then at 1. rewrite Ef. cbn [fst snd].
  unfold and_then at 1. unfold remove, on at 1. fold (hide a (cv_axes c1)). fold l.
  destruct (negb _); [reflexivity|].
  unfold and_then at 1. unfold lift at 1. unfold t. rewrite E3. fold t.
  unfold and_then at 1. unfold lift at 1. unfold t. rewrite E4. fold t.
  unfold and_then at 1. unfold add_subplot at 1. cbn [cv_axes cv_figs].
  unfold and_then at 1. unfold draw at 1. rewrite Lt, Ly, Nat.eqb_refl. unfold on at 1. cbn [cv_axes cv_figs]. rewrite change_last.
  unfold and_then at 1. unfold lift at 1. rewrite (get_ok t p 0) by lia.
  unfold and_then at 1. unfold lift at 1. rewrite (get_ok y p 0) by lia.
  unfold and_then at 1. unfold draw at 1. cbn [List.length Nat.eqb]. unfold on at 1. cbn [cv_axes cv_figs]. rewrite change_last.
  unfold and_then at 1. unfold lift at 1. unfold text_index. rewrite rint_fortieth, ?Lt. fold k.
  destruct (Nat.ltb_spec k (List.length s)) as [Hk|Hk].
  - rewrite Nat.min_l by lia. rewrite (get_ok t k 0) by lia.
    unfold and_then, put_text, set_xlim, set_title, add_subplot, draw, on, done. cbn [cv_axes cv_figs fst snd].
    rewrite ?change_last. rewrite ?Lt, ?Lv, ?Lu, ?Nat.eqb_refl. cbn [cv_axes cv_figs fst snd].
    rewrite ?change_last. cbn [cv_axes cv_figs fst snd]. rewrite ?change_last.
    cbn [empty_axes ax_fig ax_lines ax_texts ax_title ax_ylabel ax_xlim ax_ylim ax_shown app].
    rewrite ?app_length. cbn [List.length]. rewrite Ll, E7. rewrite <- !app_assoc. cbn [app].
    replace (List.length (cv_axes c1) + 1)%nat with (S (List.length (cv_axes c1))) by lia.
    replace (S (List.length (cv_axes c1)) + 1)%nat with (S (S (List.length (cv_axes c1)))) by lia. reflexivity.
  - rewrite Nat.min_r by lia. rewrite get_err by lia. cbn [empty_axes ax_fig ax_lines ax_texts ax_title ax_ylabel ax_xlim ax_ylim ax_shown app]. reflexivity.
Qed.

Lemma lift_ok {A B} (x : A) (k : A -> draws B) c : and_then (lift (Ok x)) k c = k x c.
Proof. reflexivity. Qed.

Lemma lift_err {A B} e (k : A -> draws B) c : and_then (lift (Err e)) k c = (c, Err e).
Proof. reflexivity. Qed.

Lemma one_sample s unit fig ax title c p : first_peak (vals s) p -> (List.length s < 2)%nat ->
  plot_motion (MArray s) unit fig ax title c = (c, Err IndexError).
Proof.
  intros Hp Hn. unfold plot_motion. cbn [titled]. rewrite lift_ok. cbn [fst snd].
  assert (Ne : vals s <> []) by (destruct Hp as (Hp & _); intros E; rewrite E in Hp; cbn in Hp; lia).
  destruct (max_abs_ok _ Ne) as (m & Em & _). rewrite Em, lift_ok. unfold num_int. rewrite first_step_err by exact Hn. cbn [bind]. apply lift_err.
Qed.

(** When a plot of a motion succeeds. *)
Theorem C110_iff : forall s unit fig ax title c p, first_peak (vals s) p ->
  ((exists r, snd (plot_motion (MArray s) unit fig ax title c) = Ok r) <->
   (2 <= List.length s)%nat /\ known_unit unit /\ (p + fortieth (List.length s) < List.length s)%nat).
Proof.
  intros s unit fig ax title c p Hp. destruct (le_lt_dec 2 (List.length s)) as [Hn|Hn].
  - destruct (C109_choice fig ax c) as (f & a & E & _). destruct (fig_ax fig ax c) as [c1 r] eqn:Ef. cbn in E. subst r.
    destruct (plot_motion_run s unit fig ax title c f a c1 Hn Ef p Hp) as (v & u & lo & hi & _ & _ & _ & R). rewrite R.
    pose proof (known_unit_dec unit) as K. destruct (String.eqb unit "m" || String.eqb unit "cm"); cbn [negb].
    + destruct (Nat.ltb_spec (p + fortieth (List.length s)) (List.length s)) as [H|H]; cbn [snd].
      * split; [intros _; split; [exact Hn|]; split; [apply K; reflexivity|exact H]|eauto].
      * split; [intros [r E]; discriminate|lia].
    + cbn [snd]. split; [intros [r E]; discriminate|]. intros (_ & H & _). apply K in H. discriminate.
  - split; [|lia]. intros [r E]. rewrite (one_sample s unit fig ax title c p Hp Hn) in E. discriminate.
Qed.

(** What a failing plot raises and leaves behind: a motion of one sample nothing, an unknown unit a figure
    without axes, a late peak a figure with the acceleration alone. *)
Theorem C110_failures : forall s unit fig ax title c p, first_peak (vals s) p ->
  ((List.length s < 2)%nat -> plot_motion (MArray s) unit fig ax title c = (c, Err IndexError)) /\
  ((2 <= List.length s)%nat -> ~ known_unit unit ->
     snd (plot_motion (MArray s) unit fig ax title c) = Err ValueError /\
     cv_figs (fst (plot_motion (MArray s) unit fig ax title c)) = (match fig with None => 1 | Some _ => 0 end + cv_figs c)%nat) /\
  ((2 <= List.length s)%nat -> known_unit unit -> (List.length s <= p + fortieth (List.length s))%nat ->
     snd (plot_motion (MArray s) unit fig ax title c) = Err IndexError /\
     cv_figs (fst (plot_motion (MArray s) unit fig ax title c)) = (match fig with None => 1 | Some _ => 0 end + cv_figs c)%nat /\
     exists s1, last (cv_axes (fst (plot_motion (MArray s) unit fig ax title c))) (empty_axes 0) = s1 /\
       ax_lines s1 = [mkline (times s) (vals s) None; mkline [nth p (times s) 0] [nth p (vals s) 0] None] /\ ax_title s1 = None).
Proof.
  intros s unit fig ax title c p Hp. split; [|].
  - intros Hn. apply (one_sample s unit fig ax title c p Hp Hn).
  - destruct (C109_choice fig ax c) as (f & a & E & F & _). destruct (fig_ax fig ax c) as [c1 r] eqn:Ef. cbn [fst snd] in *. subst r.
    assert (Hf : cv_figs c1 = (match fig with None => 1 | Some _ => 0 end + cv_figs c)%nat) by (destruct fig as [g|]; destruct F as [_ F]; rewrite F; reflexivity).
    split; intros Hn.
    + intros Hu. destruct (plot_motion_run s unit fig ax title c f a c1 Hn Ef p Hp) as (v & u & lo & hi & _ & _ & _ & R). rewrite R.
      pose proof (known_unit_dec unit) as K. destruct (String.eqb unit "m" || String.eqb unit "cm"); [destruct Hu; apply K; reflexivity|]. cbn. auto.
    + intros Hu Hl. destruct (plot_motion_run s unit fig ax title c f a c1 Hn Ef p Hp) as (v & u & lo & hi & _ & _ & _ & R). rewrite R.
      apply known_unit_dec in Hu. rewrite Hu. cbn [negb]. rewrite (proj2 (Nat.ltb_ge _ _)) by exact Hl. cbn [fst snd cv_figs cv_axes].
      split; [reflexivity|]. split; [exact Hf|]. eexists. split; [apply last_last|]. split; reflexivity.
Qed.

(** What a successful plot shows: three new axes in one figure with the acceleration and its first peak, the
    velocity and the displacement, all over the range of the times. *)
Theorem C110_drawn : forall s unit fig ax title c p f a1 a2 a3, first_peak (vals s) p ->
  (forall b, ax = Some b -> (b < List.length (cv_axes c))%nat) ->
  snd (plot_motion (MArray s) unit fig ax title c) = Ok (f, (a1, a2, a3)) ->
  let c' := fst (plot_motion (MArray s) unit fig ax title c) in
  f = match fig with Some g => g | None => cv_figs c end /\
  (List.length (cv_axes c) <= a1)%nat /\ a2 = S a1 /\ a3 = S a2 /\ List.length (cv_axes c') = S a3 /\
  exists s1 s2 s3 lo hi v u q,
    nth_error (cv_axes c') a1 = Some s1 /\ nth_error (cv_axes c') a2 = Some s2 /\ nth_error (cv_axes c') a3 = Some s3 /\
    ax_fig s1 = f /\ ax_fig s2 = f /\ ax_fig s3 = f /\ ax_shown s1 = true /\ ax_shown s2 = true /\ ax_shown s3 = true /\
    least (times s) lo /\ greatest (times s) hi /\
    ax_xlim s1 = Some (lo, hi) /\ ax_xlim s2 = Some (lo, hi) /\ ax_xlim s3 = Some (lo, hi) /\
    ax_title s1 = Some (match title with Some t => t | None => "Ground motion" end) /\
    ax_lines s1 = [mkline (times s) (vals s) None; mkline [nth p (times s) 0] [nth p (vals s) 0] None] /\
    ax_texts s1 = [(q, nth p (vals s) 0, Rabs (nth p (vals s) 0))] /\ In q (times s) /\
    ax_lines s2 = [mkline (times s) v None] /\ ax_lines s3 = [mkline (times s) u None] /\
    List.length v = List.length s /\ List.length u = List.length s /\
    (forall k, (k < List.length s)%nat -> nth k v 0 = shifted_sum s (vals s) k /\ nth k u 0 = shifted_sum s v k).
Proof.
  intros s unit fig ax title c p f a1 a2 a3 Hp Hax E.
  destruct (proj1 (C110_iff s unit fig ax title c p Hp) (ex_intro _ _ E)) as (Hn & Hu & Hk).
  destruct (C109_choice fig ax c) as (f' & a & E' & F & G). destruct (fig_ax fig ax c) as [c1 r] eqn:Ef. cbn [fst snd] in *. subst r.
  destruct (plot_motion_run s unit fig ax title c f' a c1 Hn Ef p Hp) as (v & u & lo & hi & Ei & M1 & M2 & R). rewrite R in *. clear R.
  apply known_unit_dec in Hu. rewrite Hu in *. cbn [negb] in *. rewrite (proj2 (Nat.ltb_lt _ _)) in * by exact Hk. cbn [fst snd cv_axes] in *.
  injection E as <- <- <- <-. set (l := hide a (cv_axes c1)) in *. assert (Ll : List.length l = List.length (cv_axes c1)) by apply change_length.
  destruct (parts s Hn) as (pga & v' & u' & lo' & hi' & p' & _ & Ei' & _ & _ & _ & _ & _ & L1 & L2 & _ & _ & N1 & N2).
  rewrite Ei in Ei'. injection Ei' as <- <-.
  split; [destruct fig; apply F|]. split.
  { destruct ax as [b|]; destruct G as [_ G]; [rewrite G; lia|]. destruct G as (s0 & G & _). rewrite G, app_length. lia. }
  split; [reflexivity|]. split; [reflexivity|]. split; [rewrite app_length; cbn; lia|].
  do 3 eexists. exists lo, hi, (vals v), (vals u), (nth (p + fortieth (List.length s)) (times s) 0).
  split; [rewrite nth_error_app2 by lia; replace (List.length (cv_axes c1) - List.length l)%nat with 0%nat by lia; reflexivity|].
  split; [rewrite nth_error_app2 by lia; replace (S (List.length (cv_axes c1)) - List.length l)%nat with 1%nat by lia; reflexivity|].
  split; [rewrite nth_error_app2 by lia; replace (S (S (List.length (cv_axes c1))) - List.length l)%nat with 2%nat by lia; reflexivity|].
  cbn [ax_fig ax_shown ax_xlim ax_title ax_lines ax_texts].
  do 6 (split; [reflexivity|]). split; [exact M1|]. split; [exact M2|]. do 6 (split; [reflexivity|]).
  split; [apply nth_In; unfold times; rewrite map_length; lia|]. split; [reflexivity|]. split; [reflexivity|].
  split; [unfold vals; rewrite map_length; exact L1|]. split; [unfold vals; rewrite map_length; exact L2|]. auto.
Qed.

(** Ground_Motion.plot: acceleration in m/s/s or gal; the documented unit g is always refused, after a figure has been opened. *)
Theorem C110_units : forall h m file fig ax c p,
  let s := sig_at h (m_accel m) in
  (2 <= List.length s)%nat -> first_peak (vals s) p ->
  gm_plot h m file "m" fig ax c = plot_motion (MArray s) "m" fig ax (Some (match file with Some f => f | None => "" end)) c /\
  (exists r, gm_plot h m file "cm" fig ax c = plot_motion (MArray r) "cm" fig ax (Some (match file with Some f => f | None => "" end)) c /\
     times r = times s /\ vals r = map (fun a => 100 * a) (vals s)) /\
  (snd (gm_plot h m file "g" fig ax c) = Err ValueError /\
   cv_figs (fst (gm_plot h m file "g" fig ax c)) = (match fig with None => 1 | Some _ => 0 end + cv_figs c)%nat) /\
  (forall u, u <> "m" -> u <> "cm" -> u <> "g" -> gm_plot h m file u fig ax c = (c, Err ValueError)).
Proof.
  intros h m file fig ax c p s Hn Hp. split; [reflexivity|]. split.
  { eexists. split; [unfold gm_plot; cbn [String.eqb Ascii.eqb Bool.eqb]; unfold unit_convert, and_then at 1, lift at 1; reflexivity|].
    unfold times, vals. rewrite !map_map. cbn [fst snd]. split; [apply map_ext; reflexivity|]. apply map_ext. intros x. lra. }
  split.
  - set (r := map (fun tv : R * R => (fst tv, snd tv / (981 / 100))) s).
    assert (E : gm_plot h m file "g" fig ax c = plot_motion (MArray r) "g" fig ax (Some (match file with Some f => f | None => "" end)) c) by reflexivity.
    rewrite E. assert (Hr : first_peak (vals r) p).
    { assert (V : vals r = map (fun x => x / (981 / 100)) (vals s)) by (unfold vals, r; rewrite !map_map; apply map_ext; reflexivity).
      assert (N : forall j, nth j (vals r) 0 = nth j (vals s) 0 / (981 / 100)).
      { intros j. rewrite V. replace 0 with (0 / (981 / 100)) at 1 by lra. apply (map_nth (fun x => x / (981 / 100))). }
      assert (A : forall x, Rabs (x / (981 / 100)) = Rabs x / (981 / 100)).
      { intros x. unfold Rdiv. rewrite Rabs_mult. f_equal. apply Rabs_right. lra. }
      destruct Hp as (P1 & P2 & P3). split; [rewrite V, map_length; exact P1|]. split.
      - intros x Hx. rewrite V in Hx. apply in_map_iff in Hx as (y & <- & Hy). rewrite N, !A. specialize (P2 y Hy). lra.
      - intros j Hj. rewrite !N, !A. specialize (P3 j Hj). lra. }
    assert (Hl : (2 <= List.length r)%nat) by (unfold r; rewrite map_length; exact Hn).
    apply (C110_failures r "g" fig ax (Some match file with Some f => f | None => "" end) c p Hr); [exact Hl|]. intros [K|K]; discriminate.
  - intros u H1 H2 H3. apply String.eqb_neq in H1, H2, H3. unfold gm_plot. rewrite H1, H2, H3. reflexivity.
Qed.

(** [summary] fails for every motion whose peak comes in its last fortieth. *)
Theorem C110_summary : forall h m file c p,
  (2 <= List.length (sig_at h (m_accel m)))%nat -> first_peak (vals (sig_at h (m_accel m))) p ->
  snd (gm_summary h m file c) =
    (if (p + fortieth (List.length (sig_at h (m_accel m))) <? List.length (sig_at h (m_accel m)))%nat then Ok tt else Err IndexError).
Proof.
  intros h m file c p Hn Hp. unfold gm_summary, and_then at 1.
  destruct (C110_units h m file None None c p Hn Hp) as (E & _). rewrite E. clear E. set (s := sig_at h (m_accel m)) in *.
  set (t := Some _). destruct (Nat.ltb_spec (p + fortieth (List.length s)) (List.length s)) as [H|H].
  - destruct (proj2 (C110_iff s "m" None None t c p Hp)) as [r Er]; [split; [exact Hn|split; [left; reflexivity|exact H]]|].
    destruct (plot_motion (MArray s) "m" None None t c) as [c1 r1]. cbn in Er. subst r1. reflexivity.
  - destruct (C110_failures s "m" None None t c p Hp) as (_ & _ & K). destruct (K Hn (or_introl eq_refl) H) as (E & _).
    destruct (plot_motion (MArray s) "m" None None t c) as [c1 r1]. cbn in E. subst r1. reflexivity.
Qed.

(** The title of a plot of a file is the given one unless empty, else the name of the file. *)
Theorem C110_title : forall name s title,
  titled (MFile name (Ok s)) title = Ok (match title with Some t => if String.eqb t "" then name else t | None => name end, s) /\
  (forall unit fig ax c e, plot_motion (MFile name (Err e)) unit fig ax title c = (c, Err e)) /\
  (forall unit fig ax c t, t = match title with Some x => if String.eqb x "" then name else x | None => name end ->
     plot_motion (MFile name (Ok s)) unit fig ax title c = plot_motion (MArray s) unit fig ax (Some t) c) /\
  (forall unit fig ax c, plot_motion MOther unit fig ax title c = (c, Err TypeError)).
Proof. intros. split; [reflexivity|]. split; [reflexivity|]. split; [|reflexivity]. intros unit fig ax c t ->. reflexivity. Qed.

(** A motion of 40 samples with its peak at the end cannot be plotted, one with the peak before can. *)
Example C110_instance :
  let s1 := combine (map INR (seq 0 40)) (repeat 0 39 ++ [1]) in
  let s2 := combine (map INR (seq 0 40)) (repeat 0 38 ++ [1; 0]) in
  first_peak (vals s1) 39 /\ first_peak (vals s2) 38 /\ fortieth 40 = 1%nat /\
  snd (plot_motion (MArray s1) "m" None None None blank) = Err IndexError /\
  (exists r, snd (plot_motion (MArray s2) "m" None None None blank) = Ok r).
Proof.
  cbv zeta. assert (P1 : first_peak (vals (combine (map INR (seq 0 40)) (repeat 0 39 ++ [1]))) 39).
  { cbn [seq map repeat app combine vals snd List.length]. split; [cbn; lia|]. cbn [nth]. rewrite Rabs_R1. split.
    - intros x Hx. repeat (destruct Hx as [<-|Hx]; [rewrite ?Rabs_R0, ?Rabs_R1; lra|]). destruct Hx.
    - intros j Hj. do 39 (destruct j as [|j]; [cbn [nth]; rewrite Rabs_R0; lra|]). lia. }
  assert (P2 : first_peak (vals (combine (map INR (seq 0 40)) (repeat 0 38 ++ [1; 0]))) 38).
  { cbn [seq map repeat app combine vals snd List.length]. split; [cbn; lia|]. cbn [nth]. rewrite Rabs_R1. split.
    - intros x Hx. repeat (destruct Hx as [<-|Hx]; [rewrite ?Rabs_R0, ?Rabs_R1; lra|]). destruct Hx.
    - intros j Hj. do 38 (destruct j as [|j]; [cbn [nth]; rewrite Rabs_R0; lra|]). lia. }
  split; [exact P1|]. split; [exact P2|]. split; [reflexivity|]. split.
  - apply (C110_failures _ "m" None None None blank 39 P1); [cbn; lia|left; reflexivity|cbn; lia].
  - apply (C110_iff _ "m" None None None blank 38 P2). split; [cbn; lia|]. split; [left; reflexivity|cbn; lia].
Qed.

(** ** C111 velocity profiles *)

(** The axes [s] with one more line, and with title, label of the vertical axis and limits changed if given. *)
Definition with_line (l : line) (title ylabel : option string) (xl yl : option (R * R)) (s : axes) : axes :=
  mkaxes (ax_fig s) (ax_lines s ++ [l]) (ax_texts s) (if truthy title then title else ax_title s) (if truthy ylabel then ylabel else ax_ylabel s)
    (match xl with Some _ => xl | None => ax_xlim s end) (match yl with Some _ => yl | None => ax_ylim s end) (ax_shown s).

(** The greatest depth shown: the given one unless it is 0, else the total thickness and once more that of the first layer. *)
Definition deepest (p : list layer) (md : option R) (z : R) : Prop :=
  (exists d, md = Some d /\ d <> 0 /\ z = d) \/
  ((md = None \/ md = Some 0) /\ exists h v p', p = (h, v) :: p' /\ z = rsum (thk_of p) + h).

(** The points of the line through the points (x_i, y_i). *)
Definition on_polyline (x y : list R) (px py : R) : Prop :=
  exists j k, (S j < List.length x)%nat /\ 0 <= k <= 1 /\
    px = (1 - k) * nth j x 0 + k * nth (S j) x 0 /\ py = (1 - k) * nth j y 0 + k * nth (S j) y 0.

(** Top and bottom of layer [i], the half-space at the end reaching to [z]. *)
Definition top_of (p : list layer) (i : nat) : R := rsum (firstn i (thk_of p)).
Definition bottom_of (p : list layer) (z : R) (i : nat) : R := if Nat.eqb (S i) (List.length p) then z else rsum (firstn (S i) (thk_of p)).

Definition between (a b x : R) : Prop := a <= x <= b \/ b <= x <= a.

Lemma between_mix a b x : between a b x <-> exists k, 0 <= k <= 1 /\ x = (1 - k) * a + k * b.
Proof.
  split.
  - intros H. destruct (Req_dec a b) as [->|N]; [exists 0; split; [lra|]; destruct H; lra|].
    assert (E : x = (1 - (x - a) / (b - a)) * a + (x - a) / (b - a) * b) by (field; lra).
    exists ((x - a) / (b - a)). split; [|exact E]. destruct H as [H|H].
    + split; [apply Rmult_le_pos; [lra|left; apply Rinv_0_lt_compat; lra]|]. apply (Rmult_le_reg_r (b - a)); [lra|]. unfold Rdiv. rewrite Rmult_assoc, Rinv_l by lra. lra.
    + replace ((x - a) / (b - a)) with ((a - x) / (a - b)) by (field; lra).
      split; [apply Rmult_le_pos; [lra|left; apply Rinv_0_lt_compat; lra]|]. apply (Rmult_le_reg_r (a - b)); [lra|]. unfold Rdiv. rewrite Rmult_assoc, Rinv_l by lra. lra.
  - intros (k & H & ->). unfold between. destruct (Rle_dec a b); [left|right]; nra.
Qed.

(** The drawn line, as the set of its points: at every depth of a layer its velocity, at the interfaces all
    velocities between those of the two layers; nothing else. *)
Lemma staircase_points p z x y : p <> [] -> gen_profile_plot_array (thk_of p) (vs_of p) z = Ok (x, y) ->
  List.length x = List.length y /\
  forall px py, on_polyline x y px py <->
    (exists i, (i < List.length p)%nat /\ px = nth i (vs_of p) 0 /\ between (top_of p i) (bottom_of p z i) py) \/
    (exists i, (S i < List.length p)%nat /\ py = top_of p (S i) /\ between (nth i (vs_of p) 0) (nth (S i) (vs_of p) 0) px).
Proof.
  intros Hp E. assert (Lt : List.length (thk_of p) = List.length p) by apply map_length. assert (Lv : List.length (vs_of p) = List.length p) by apply map_length.
  destruct (C66_staircase (thk_of p) (vs_of p) z) as (x' & y' & E' & Lx & Ly & K).
  { intros H. rewrite H in Lt. destruct p; [congruence|cbn in Lt; lia]. } { lia. }
  rewrite E in E'. injection E' as <- <-. rewrite Lv in *. split; [lia|].
  assert (Even : forall i, (i < List.length p)%nat -> nth (2 * i) x 0 = nth i (vs_of p) 0 /\ nth (S (2 * i)) x 0 = nth i (vs_of p) 0 /\
             nth (2 * i) y 0 = top_of p i /\ nth (S (2 * i)) y 0 = bottom_of p z i).
  { intros i Hi. destruct (K i Hi) as (A & B & C & D). rewrite Nat.add_1_r in B, D. auto. }
  assert (Odd : forall i, (S i < List.length p)%nat -> nth (S (2 * i)) x 0 = nth i (vs_of p) 0 /\ nth (S (S (2 * i))) x 0 = nth (S i) (vs_of p) 0 /\
             nth (S (2 * i)) y 0 = top_of p (S i) /\ nth (S (S (2 * i))) y 0 = top_of p (S i)).
  { intros i Hi. destruct (Even i ltac:(lia)) as (_ & A & _ & B). destruct (Even (S i) Hi) as (C & _ & D & _).
    replace (2 * S i)%nat with (S (S (2 * i))) in C, D by lia. split; [exact A|]. split; [exact C|]. split; [|exact D].
    rewrite B. unfold bottom_of, top_of. destruct (Nat.eqb_spec (S i) (List.length p)); [lia|reflexivity]. }
  intros px py. split.
  - intros (j & k & Hj & Hk & -> & ->). rewrite Lx in Hj. destruct (Nat.Even_or_Odd j) as [[i ->]|[i ->]].
    + left. exists i. destruct (Even i ltac:(lia)) as (-> & -> & -> & ->). split; [lia|]. split; [lra|]. apply between_mix. exists k. split; [exact Hk|reflexivity].
    + right. exists i. rewrite Nat.add_1_r in *. destruct (Odd i ltac:(lia)) as (-> & -> & -> & ->). split; [lia|]. split; [lra|]. apply between_mix. exists k. split; [exact Hk|reflexivity].
  - intros [(i & Hi & -> & H)|(i & Hi & -> & H)]; apply between_mix in H as (k & Hk & ->).
    + exists (2 * i)%nat, k. destruct (Even i Hi) as (-> & -> & -> & ->). split; [lia|]. split; [exact Hk|]. split; lra.
    + exists (S (2 * i)), k. destruct (Odd i Hi) as (-> & -> & -> & ->). split; [lia|]. split; [exact Hk|]. split; lra.
Qed.

Lemma plot_Vs_run p fig ax title label md c c1 f a : p <> [] -> fig_ax fig ax c = (c1, Ok (f, a)) ->
  exists x y z m, deepest p md z /\ greatest (vs_of p) m /\ gen_profile_plot_array (thk_of p) (vs_of p) z = Ok (x, y) /\
    plot_Vs_profile (Ok p) fig ax title label md c =
      (mkcanvas (cv_figs c1) (change a (with_line (mkline x y label) title None (Some (0, m * (11 / 10))) (Some (z, 0))) (cv_axes c1)), Ok (f, a)).
Proof.
  intros Hp E.
  assert (exists z, (match md with None => let! h0 := get (thk_of p) 0 in Ok (rsum (thk_of p) + h0)
      | Some d => if Reqb d 0 then let! h0 := get (thk_of p) 0 in Ok (rsum (thk_of p) + h0) else Ok d end) = Ok z /\ deepest p md z) as (z & Ez & Dz).
  { destruct p as [|[h v] p']; [congruence|]. destruct md as [d|].
    - destruct (Reqb_spec d 0) as [->|N]; eexists; (split; [reflexivity|]); [right; split; [auto|]; exists h, v, p'; auto|left; exists d; auto].
    - eexists; (split; [reflexivity|]). right. split; [auto|]. exists h, v, p'. auto. }
  destruct (C66_staircase (thk_of p) (vs_of p) z) as (x & y & Exy & Lx & Ly & _).
  { destruct p; [congruence|discriminate]. } { unfold thk_of, vs_of. rewrite !map_length. reflexivity. }
  assert (Nv : vs_of p <> []) by (destruct p; [congruence|discriminate]).
  destruct (rmax1_spec (vs_of p) 0 Nv) as (m & Em & _).
  exists x, y, z, m. split; [exact Dz|]. split; [apply rmax1_greatest; exact Em|]. split; [exact Exy|].
  unfold plot_Vs_profile. unfold and_then at 1. rewrite E. rewrite lift_ok. rewrite Ez, lift_ok, Exy, lift_ok. cbn [fst snd].
  unfold draw. rewrite Lx, Ly, Nat.eqb_refl. unfold and_then at 1. unfold on at 1. rewrite Em, lift_ok.
  destruct title as [t|]; [destruct (String.eqb t "") eqn:Et|]; unfold title_if; rewrite ?Et;
    unfold and_then, set_xlim, set_ylim, set_title, on, done; cbn [cv_figs cv_axes]; rewrite !change_twice; unfold with_line, truthy; rewrite ?Et; reflexivity.
Qed.

(** What a plot of a profile shows, given axes or none. *)
Theorem C111_drawn : forall p fig ax title label md c, p <> [] ->
  (forall b, ax = Some b -> (b < List.length (cv_axes c))%nat) ->
  exists f a s0 x y z m,
    snd (plot_Vs_profile (Ok p) fig ax title label md c) = Ok (f, a) /\ deepest p md z /\ greatest (vs_of p) m /\
    match ax with Some b => a = b /\ nth_error (cv_axes c) b = Some s0 | None => a = List.length (cv_axes c) /\ s0 = empty_axes f end /\
    nth_error (cv_axes (fst (plot_Vs_profile (Ok p) fig ax title label md c))) a =
      Some (mkaxes (ax_fig s0) (ax_lines s0 ++ [mkline x y label]) (ax_texts s0) (if truthy title then title else ax_title s0) (ax_ylabel s0)
             (Some (0, m * (11 / 10))) (Some (z, 0)) (ax_shown s0)) /\
    (forall px py, on_polyline x y px py <->
      (exists i, (i < List.length p)%nat /\ px = nth i (vs_of p) 0 /\ between (top_of p i) (bottom_of p z i) py) \/
      (exists i, (S i < List.length p)%nat /\ py = top_of p (S i) /\ between (nth i (vs_of p) 0) (nth (S i) (vs_of p) 0) px)).
Proof.
  intros p fig ax title label md c Hp Hax. destruct (C109_choice fig ax c) as (f & a & E & _ & G). destruct (fig_ax fig ax c) as [c1 r] eqn:Ef. cbn [fst snd] in *. subst r.
  destruct (plot_Vs_run p fig ax title label md c c1 f a Hp Ef) as (x & y & z & m & Dz & Gm & Exy & R). rewrite R. cbn [fst snd cv_axes].
  assert (exists s0, nth_error (cv_axes c1) a = Some s0 /\ match ax with Some b => a = b /\ nth_error (cv_axes c) b = Some s0 | None => a = List.length (cv_axes c) /\ s0 = empty_axes f end) as (s0 & E0 & H0).
  { destruct ax as [b|].
    - destruct G as [-> G]. rewrite G. destruct (nth_error (cv_axes c) b) as [s0|] eqn:E0; [exists s0; auto|]. apply nth_error_None in E0. specialize (Hax b eq_refl). lia.
    - exists (empty_axes f). split; [|split; [apply G|reflexivity]]. destruct fig; cbn in Ef; injection Ef as <- <- <-; cbn [cv_axes]; rewrite nth_error_app2, Nat.sub_diag by lia; reflexivity. }
  exists f, a, s0, x, y, z, m. split; [reflexivity|]. split; [exact Dz|]. split; [exact Gm|]. split; [exact H0|].
  split; [rewrite (change_same _ _ _ _ E0); reflexivity|]. apply (staircase_points p z x y Hp Exy).
Qed.

(** Without a depth everything is in view: the velocities lie between 0 and the limit, the depths between 0 and the limit, and the half-space is drawn. *)
Theorem C111_in_view : forall p z m px py x y,
  p <> [] -> (forall h v, In (h, v) p -> 0 <= h /\ 0 <= v) -> deepest p None z -> greatest (vs_of p) m ->
  gen_profile_plot_array (thk_of p) (vs_of p) z = Ok (x, y) -> on_polyline x y px py ->
  0 <= px <= m * (11 / 10) /\ 0 <= py <= z.
Proof.
  intros p z m px py x y Hp Hpos Hz Hm E H. apply (staircase_points p z x y Hp E) in H.
  assert (Hv : forall i, (i < List.length p)%nat -> 0 <= nth i (vs_of p) 0 <= m).
  { intros i Hi. assert (I : In (nth i (vs_of p) 0) (vs_of p)) by (apply nth_In; unfold vs_of; rewrite map_length; exact Hi).
    split; [|apply Hm; exact I]. apply in_map_iff in I as ([h v] & <- & I). apply (Hpos h v I). }
  assert (Ht : forall t, In t (thk_of p) -> 0 <= t) by (intros t Ht; apply in_map_iff in Ht as ([h v] & <- & I); apply (Hpos h v I)).
  assert (Rs : forall l, (forall t, In t l -> 0 <= t) -> 0 <= rsum l).
  { intros l. induction l as [|t l IH]; intros K; [cbn; lra|]. change (rsum (t :: l)) with (t + rsum l). pose proof (K t (or_introl eq_refl)). specialize (IH (fun u Hu => K u (or_intror Hu))). lra. }
  assert (Hz' : rsum (thk_of p) <= z).
  { destruct Hz as [(d & K & _)|(_ & h & v & p' & -> & ->)]; [discriminate|]. destruct (Hpos h v (or_introl eq_refl)). lra. }
  assert (Hd : forall i, 0 <= top_of p i <= z).
  { intros i. unfold top_of. assert (S' : rsum (thk_of p) = rsum (firstn i (thk_of p)) + rsum (skipn i (thk_of p))).
    { rewrite <- (firstn_skipn i (thk_of p)) at 1. generalize (firstn i (thk_of p)), (skipn i (thk_of p)). intros l1 l2. induction l1 as [|u l1 IH]; [cbn; lra|]. change (rsum ((u :: l1) ++ l2)) with (u + rsum (l1 ++ l2)). change (rsum (u :: l1)) with (u + rsum l1). lra. }
    assert (0 <= rsum (firstn i (thk_of p))) by (apply Rs; intros t I; apply Ht; rewrite <- (firstn_skipn i (thk_of p)); apply in_or_app; auto).
    assert (0 <= rsum (skipn i (thk_of p))) by (apply Rs; intros t I; apply Ht; rewrite <- (firstn_skipn i (thk_of p)); apply in_or_app; auto). lra. }
  assert (Hb : forall i, 0 <= bottom_of p z i <= z).
  { intros i. unfold bottom_of. destruct (Nat.eqb _ _); [destruct (Hd 0%nat) as [d1 d2]; split; [exact (Rle_trans _ _ _ d1 d2)|apply Rle_refl]|apply (Hd (S i))]. }
  assert (M0 : 0 <= m) by (assert (0 < List.length p)%nat by (destruct p; [congruence|cbn; lia]); specialize (Hv 0%nat H0); lra).
  destruct H as [(i & Hi & -> & K)|(i & Hi & -> & K)].
  - specialize (Hv i Hi). specialize (Hd i). specialize (Hb i). destruct K; lra.
  - pose proof (Hv i (Nat.lt_trans _ _ _ (Nat.lt_succ_diag_r i) Hi)). pose proof (Hv (S i) Hi). specialize (Hd (S i)). destruct K; lra.
Qed.

(** A depth of 0 is the same as none; an array that fails the check leaves its figure behind. *)
Theorem C111_failures : forall p fig ax title label c,
  plot_Vs_profile (Ok p) fig ax title label (Some 0) c = plot_Vs_profile (Ok p) fig ax title label None c /\
  (forall e md, snd (plot_Vs_profile (Err e) fig ax title label md c) = Err e /\
     fst (plot_Vs_profile (Err e) fig ax title label md c) = fst (fig_ax fig ax c)).
Proof.
  intros. split.
  - unfold plot_Vs_profile. rewrite (proj2 (Reqb_true 0 0) eq_refl). reflexivity.
  - intros e md. assert (K : plot_Vs_profile (Err e) fig ax title label md c = (fst (fig_ax fig ax c), Err e)).
    { destruct (C109_choice fig ax c) as (f & a & E & _). unfold plot_Vs_profile, and_then at 1. destruct (fig_ax fig ax c) as [c1 r]. cbn [fst snd] in *. subst r. apply lift_err. }
    rewrite K. split; reflexivity.
Qed.

(** [Vs_Profile.plot]: the file the profile came from is the title, and then no title can be given; [SVM.plot] never takes one. *)
Theorem C111_title : forall h o file fig ax label md c,
  (forall f t, file = Some f -> f <> "" -> vs_plot h o file (Some t) fig ax label md c = (c, Err TypeError)) /\
  (forall f, file = Some f -> f <> "" -> vs_plot h o file None fig ax label md c = plot_Vs_profile (Ok (profile_of h o)) fig ax (Some f) label md c) /\
  (forall t, file = None \/ file = Some "" -> vs_plot h o file (Some t) fig ax label md c = plot_Vs_profile (Ok (profile_of h o)) fig ax t label md c) /\
  (file = None \/ file = Some "" -> vs_plot h o file None fig ax label md c = plot_Vs_profile (Ok (profile_of h o)) fig ax None label md c) /\
  (forall s text t, svm_plot h s text (Some t) fig ax c = (c, Err TypeError)).
Proof.
  intros. repeat match goal with |- _ /\ _ => split end; intros.
  - subst. unfold vs_plot, truthy. rewrite (proj2 (String.eqb_neq _ _) H0). reflexivity.
  - subst. unfold vs_plot, truthy. rewrite (proj2 (String.eqb_neq _ _) H0). reflexivity.
  - destruct H; subst; reflexivity.
  - destruct H; subst; reflexivity.
  - reflexivity.
Qed.

(** Queried points are drawn as given over the profile, and the depth axis is extended so that all of them are in view. *)
Theorem C111_points : forall h o file vs depth c,
  profile_of h o <> [] -> List.length vs = List.length depth -> depth <> [] ->
  (forall t v, In (t, v) (profile_of h o) -> 0 <= t) ->
  exists l s z,
    plot_queried h o file vs depth c = (mkcanvas (S (cv_figs c)) (cv_axes c ++ [s]), Ok tt) /\
    ax_fig s = cv_figs c /\ ax_shown s = true /\ ax_lines s = [l; mkline vs depth None] /\ ax_ylim s = Some (z, 0) /\
    ax_title s = (if truthy file then file else None) /\
    (forall d, In d depth -> d <= z) /\ (forall z', deepest (profile_of h o) None z' -> z' <= z) /\
    (In z depth \/ deepest (profile_of h o) None z).
Proof.
  intros h o file vs depth c Hp HL Hd Hpos. set (p := profile_of h o) in *.
  assert (Ev : vs_plot h o file None None None None None c = plot_Vs_profile (Ok p) None None (if truthy file then file else None) None None c).
  { unfold vs_plot. destruct (truthy file); reflexivity. }
  destruct (plot_Vs_run p None None (if truthy file then file else None) None None c _ _ _ Hp eq_refl) as (x & y & z & m & Dz & Gm & Exy & Run).
  assert (Z : z = rsum (thk_of p) + match p with l :: _ => fst l | [] => 0 end /\ 0 <= z).
  { destruct Dz as [(d & K & _)|(_ & t & v & p' & Ep & ->)]; [discriminate|]. rewrite Ep at 3. cbn [fst]. split; [rewrite Ep; reflexivity|].
    assert (Rs : forall l, (forall t, In t l -> 0 <= t) -> 0 <= rsum l).
    { intros l. induction l as [|u l IH]; intros K; [cbn; lra|]. change (rsum (u :: l)) with (u + rsum l). pose proof (K u (or_introl eq_refl)). specialize (IH (fun w Hw => K w (or_intror Hw))). lra. }
    assert (0 <= rsum (thk_of p)). { apply Rs. intros u Hu. apply in_map_iff in Hu as ([h' v'] & <- & I). apply (Hpos h' v' I). }
    assert (0 <= t) by (apply (Hpos t v); rewrite Ep; left; reflexivity). lra. }
  destruct Z as [Z Z0]. destruct (rmax1_spec depth 0 Hd) as (D & ED & _). assert (GD := proj1 (rmax1_greatest depth D) ED).
  unfold plot_queried. fold p. unfold and_then at 1. rewrite Ev, Run. cbn [snd]. unfold draw. rewrite HL, Nat.eqb_refl. unfold and_then at 1. unfold on at 1.
  cbn [cv_figs cv_axes].
  replace (match p with [] => Err IndexError | l :: _ => Ok (rsum (thk_of p) + fst l) end) with (Ok z : res R) by (rewrite Z; destruct p; [congruence|reflexivity]).
  rewrite lift_ok, ED, lift_ok. rewrite (Rmax_left z 0), (Rmin_right z 0) by lra. rewrite change_last, change_last.
  assert (DU : forall z', deepest p None z' -> z' = z).
  { intros z' [(d & K & _)|(_ & t & v & p' & Ep & ->)]; [discriminate|]. rewrite Z, Ep. reflexivity. }
  destruct (Rleb_spec z D) as [H|H].
  - unfold set_ylim, on. cbn [cv_figs cv_axes]. rewrite change_last. do 2 eexists. exists D. split; [reflexivity|]. cbn.
    do 4 (split; [reflexivity|]). split; [destruct (truthy file) eqn:T; [rewrite T|]; reflexivity|].
    split; [apply GD|]. split; [intros z' Hz'; rewrite (DU z' Hz'); exact H|left; apply GD].
  - unfold done. do 2 eexists. exists z. split; [reflexivity|]. cbn.
    do 4 (split; [reflexivity|]). split; [destruct (truthy file) eqn:T; [rewrite T|]; reflexivity|].
    split; [intros d I; apply GD in I; lra|]. split; [intros z' Hz'; rewrite (DU z' Hz'); lra|right; exact Dz].
Qed.

(** The discretised or randomised profile over the smooth one: one new figure with two labelled lines, the smooth profile first, and a velocity
    axis that takes no account of the smooth profile. *)
Theorem C111_additional : forall h s text p label c, base_layers h s <> [] -> p <> [] ->
  exists l1 l2 ax1 M z,
    plot_additional h s text p label c = (mkcanvas (S (cv_figs c)) (cv_axes c ++ [ax1]), Ok tt) /\
    ax_fig ax1 = cv_figs c /\ ax_shown ax1 = true /\ ax_lines ax1 = [l1; l2] /\ l_label l1 = Some "Smooth" /\ l_label l2 = Some label /\
    ax_title ax1 = Some text /\ ax_xlim ax1 = Some (0, M * (11 / 10)) /\ greatest (vs_of p ++ [1000]) M /\
    ax_ylim ax1 = Some (z, 0) /\ deepest p None z /\
    (exists z1, deepest (base_layers h s) None z1 /\ gen_profile_plot_array (thk_of (base_layers h s)) (vs_of (base_layers h s)) z1 = Ok (l_x l1, l_y l1)) /\
    gen_profile_plot_array (thk_of p) (vs_of p) z = Ok (l_x l2, l_y l2).
Proof.
  intros h s text p label c Hb Hp. unfold plot_additional.
  destruct (plot_Vs_run (base_layers h s) None None None (Some "Smooth") None c _ _ _ Hb eq_refl) as (x1 & y1 & z1 & m1 & D1 & _ & E1 & R1).
  unfold and_then at 1. rewrite R1. cbn [fst snd cv_axes cv_figs]. rewrite change_last.
  set (c1 := mkcanvas _ _). destruct (plot_Vs_run p (Some (cv_figs c)) (Some (List.length (cv_axes c))) None (Some label) None c1 c1 _ _ Hp eq_refl) as (x2 & y2 & z2 & m2 & D2 & _ & E2 & R2).
  unfold and_then at 1. rewrite R2. cbn [fst snd cv_axes cv_figs c1]. rewrite change_last.
  unfold and_then at 1. unfold set_title, on. cbn [cv_axes cv_figs]. rewrite change_last.
  destruct (rmax1_spec (vs_of p ++ [1000]) 0) as (M & EM & _); [destruct (vs_of p); discriminate|]. rewrite EM, lift_ok.
  unfold set_xlim, on. cbn [cv_axes cv_figs]. rewrite change_last. exists (mkline x1 y1 (Some "Smooth")), (mkline x2 y2 (Some label)). eexists. exists M, z2.
  split; [reflexivity|]. cbn. do 7 (split; [reflexivity|]). split; [apply rmax1_greatest; exact EM|]. split; [reflexivity|]. split; [exact D2|]. split; [eauto|exact E2].
Qed.

(** Two layers over a half-space: a point at an interface and one in the second layer. *)
Example C111_instance :
  let p := [(10, 200); (20, 400); (0, 800)] in
  deepest p None 40 /\ greatest (vs_of p) 800 /\
  exists x y, gen_profile_plot_array (thk_of p) (vs_of p) 40 = Ok (x, y) /\ on_polyline x y 400 25 /\ on_polyline x y 300 10 /\ on_polyline x y 800 35 /\ ~ on_polyline x y 400 5.
Proof.
  cbv zeta. split; [right; split; [auto|]; do 3 eexists; split; [reflexivity|]; cbn; lra|].
  split; [split; [cbn; auto|]; intros x Hx; cbn in Hx; destruct Hx as [<-|[<-|[<-|[]]]]; lra|].
  destruct (C66_staircase [10; 20; 0] [200; 400; 800] 40) as (x & y & E & _); [discriminate|reflexivity|].
  exists x, y. split; [exact E|].
  assert (K := proj2 (staircase_points [(10, 200); (20, 400); (0, 800)] 40 x y ltac:(discriminate) E)).
  split; [apply K; left; exists 1%nat; cbn; split; [lia|]; split; [reflexivity|]; unfold between, top_of, bottom_of; cbn; lra|].
  split; [apply K; right; exists 0%nat; cbn; split; [lia|]; split; [unfold top_of; cbn; lra|]; unfold between; lra|].
  split; [apply K; left; exists 2%nat; cbn; split; [lia|]; split; [reflexivity|]; unfold between, top_of, bottom_of; cbn; lra|].
  intros H. apply K in H as [(i & Hi & Ex & B)|(i & Hi & Ez & B)]; cbn in Hi; unfold top_of, bottom_of, between in *.
  - destruct i as [|[|[|i]]]; cbn in *; try lra; lia.
  - destruct i as [|[|i]]; cbn in *; try lra; lia.
Qed.

(** ** C112 curves and spectra *)

(** The points of a curve that a plot shows. *)
Definition shown_data (h : sheap) (cu : curve) (interpolated : bool) : signal := sig_at h (if interpolated then c_data cu else c_raw cu).
Definition line_of (s : signal) (label : option string) : line := mkline (map fst s) (map snd s) label.

Lemma curve_plot_run h cu b fig ax title ylabel label c c1 f a : fig_ax fig ax c = (c1, Ok (f, a)) ->
  curve_plot h cu b fig ax title ylabel label c =
    (mkcanvas (cv_figs c1) (change a (with_line (line_of (shown_data h cu b) label) title ylabel None None) (cv_axes c1)), Ok (f, a)).
Proof.
  intros E. unfold curve_plot. unfold and_then at 1. rewrite E. cbn [fst snd].
  replace (if b then draw a (strain h cu) (values h cu) label else draw a (times (sig_at h (c_raw cu))) (vals (sig_at h (c_raw cu))) label)
    with (on a (fun s => mkaxes (ax_fig s) (ax_lines s ++ [line_of (shown_data h cu b) label]) (ax_texts s) (ax_title s) (ax_ylabel s) (ax_xlim s) (ax_ylim s) (ax_shown s)))
    by (destruct b; unfold draw, strain, values, times, vals; rewrite !map_length, Nat.eqb_refl; reflexivity).
  unfold and_then at 1. unfold on at 1.
  unfold ylabel_if, title_if, with_line, truthy.
  destruct ylabel as [y|]; [destruct (String.eqb y "") eqn:Ey|]; (destruct title as [t|]; [destruct (String.eqb t "") eqn:Et|]);
    unfold and_then, set_ylabel, set_title, on, done; cbn [cv_figs cv_axes negb]; rewrite ?change_twice; reflexivity.
Qed.

(** One curve: one line with the keyword arguments given, on the given axes or on new ones. *)
Theorem C112_curve : forall h cu b fig ax title ylabel label c,
  (forall g, ax = Some g -> (g < List.length (cv_axes c))%nat) ->
  exists f a s0, snd (curve_plot h cu b fig ax title ylabel label c) = Ok (f, a) /\
    f = match fig with Some g => g | None => cv_figs c end /\
    match ax with Some g => a = g /\ nth_error (cv_axes c) g = Some s0 | None => a = List.length (cv_axes c) /\ s0 = empty_axes f end /\
    nth_error (cv_axes (fst (curve_plot h cu b fig ax title ylabel label c))) a =
      Some (with_line (line_of (shown_data h cu b) label) title ylabel None None s0).
Proof.
  intros h cu b fig ax title ylabel label c Hax. destruct (C109_choice fig ax c) as (f & a & E & F & G). destruct (fig_ax fig ax c) as [c1 r] eqn:Ef. cbn [fst snd] in *. subst r.
  rewrite (curve_plot_run h cu b fig ax title ylabel label c c1 f a Ef). cbn [fst snd cv_axes].
  assert (exists s0, nth_error (cv_axes c1) a = Some s0 /\ match ax with Some b => a = b /\ nth_error (cv_axes c) b = Some s0 | None => a = List.length (cv_axes c) /\ s0 = empty_axes f end) as (s0 & E0 & H0).
  { destruct ax as [g|].
    - destruct G as [-> G]. rewrite G. destruct (nth_error (cv_axes c) g) as [s0|] eqn:E0; [exists s0; auto|]. apply nth_error_None in E0. specialize (Hax g eq_refl). lia.
    - exists (empty_axes f). split; [|split; [apply G|reflexivity]]. destruct fig; cbn in Ef; injection Ef as <- <- <-; cbn [cv_axes]; rewrite nth_error_app2, Nat.sub_diag by lia; reflexivity. }
  exists f, a, s0. split; [reflexivity|]. split; [destruct fig; apply F|]. split; [exact H0|]. apply (change_same _ _ _ _ E0).
Qed.

Lemma curves_loop_run h b f a title ylabel : forall cs c s0, nth_error (cv_axes c) a = Some s0 ->
  exists s, curves_loop h cs b f a title ylabel c = (mkcanvas (cv_figs c) (change a (fun _ => s) (cv_axes c)), Ok tt) /\
    ax_fig s = ax_fig s0 /\ ax_shown s = ax_shown s0 /\ ax_lines s = ax_lines s0 ++ map (fun cu => line_of (shown_data h cu b) None) cs /\
    (cs <> [] -> ax_title s = (if truthy title then title else ax_title s0) /\ ax_ylabel s = (if truthy ylabel then ylabel else ax_ylabel s0)).
Proof.
  induction cs as [|cu cs IH]; intros c s0 E.
  - exists s0. split; [|rewrite app_nil_r; repeat match goal with |- _ /\ _ => split end; auto; congruence].
    cbn [curves_loop]. unfold done. f_equal. destruct c as [n l]. cbn [cv_figs cv_axes] in *. f_equal. revert a E. induction l as [|x l IH]; intros [|a] E; cbn in *; try discriminate.
    + injection E as ->. reflexivity.
    + f_equal. apply IH. exact E.
  - cbn [curves_loop]. unfold and_then at 1. rewrite (curve_plot_run h cu b (Some f) (Some a) title ylabel None c c f a eq_refl).
    set (s1 := with_line (line_of (shown_data h cu b) None) title ylabel None None s0).
    destruct (IH (mkcanvas (cv_figs c) (change a (with_line (line_of (shown_data h cu b) None) title ylabel None None) (cv_axes c))) s1) as (s & R & E1 & E2 & E3 & E4).
    { cbn [cv_axes]. apply change_same. exact E. }
    exists s. rewrite R. cbn [cv_figs cv_axes]. rewrite change_twice. split; [reflexivity|]. split; [rewrite E1; reflexivity|]. split; [rewrite E2; reflexivity|].
    split; [rewrite E3; cbn [s1 with_line ax_lines map]; rewrite <- app_assoc; reflexivity|].
    intros _. destruct cs as [|cu' cs].
    + cbn [curves_loop] in R. unfold done in R. injection R as R.
      assert (K : nth_error (change a (fun _ => s) (change a (with_line (line_of (shown_data h cu b) None) title ylabel None None) (cv_axes c))) a = Some s).
      { apply (change_same a (fun _ => s) _ s1). apply change_same. exact E. }
      rewrite <- R in K. rewrite (change_same a _ _ s0 E) in K. injection K as <-. split; reflexivity.
    + destruct E4 as [E4 E5]; [discriminate|]. rewrite E4, E5. cbn [s1 with_line ax_title ax_ylabel].
      split; [destruct (truthy title); reflexivity|destruct (truthy ylabel); reflexivity].
Qed.

(** Several curves: all of them in order on one pair of axes.  Axes given without their figure are not used, and no keyword argument
    reaches the lines. *)
Theorem C112_curves : forall h cs b fig ax title ylabel label c,
  (forall g, fig <> None -> ax = Some g -> (g < List.length (cv_axes c))%nat) ->
  exists f a s0 s, snd (curves_plot h cs b fig ax title ylabel label c) = Ok (f, a) /\
    f = match fig with Some g => g | None => cv_figs c end /\
    match fig, ax with
    | Some _, Some g => a = g /\ nth_error (cv_axes c) g = Some s0
    | _, _ => a = List.length (cv_axes c) /\ s0 = empty_axes f
    end /\
    nth_error (cv_axes (fst (curves_plot h cs b fig ax title ylabel label c))) a = Some s /\
    ax_fig s = ax_fig s0 /\ ax_shown s = ax_shown s0 /\
    ax_lines s = ax_lines s0 ++ map (fun cu => line_of (shown_data h cu b) None) cs /\
    (cs <> [] -> ax_title s = (if truthy title then title else ax_title s0) /\ ax_ylabel s = (if truthy ylabel then ylabel else ax_ylabel s0)) /\
    cv_figs (fst (curves_plot h cs b fig ax title ylabel label c)) = match fig with Some _ => cv_figs c | None => S (cv_figs c) end.
Proof.
  intros h cs b fig ax title ylabel label c Hax.
  assert (exists c1 f a s0, (match fig, ax with None, _ => fig_ax None None | Some f, None => fig_ax (Some f) None | Some f, Some a => done (f, a) end) c = (c1, Ok (f, a)) /\
     f = match fig with Some g => g | None => cv_figs c end /\ nth_error (cv_axes c1) a = Some s0 /\
     match fig, ax with Some _, Some g => a = g /\ nth_error (cv_axes c) g = Some s0 | _, _ => a = List.length (cv_axes c) /\ s0 = empty_axes f end /\
     cv_figs c1 = match fig with Some _ => cv_figs c | None => S (cv_figs c) end) as (c1 & f & a & s0 & E & Ef & E0 & H0 & Hf).
  { destruct fig as [g|]; [destruct ax as [x|]|].
    - destruct (nth_error (cv_axes c) x) as [s0|] eqn:E0; [|apply nth_error_None in E0; specialize (Hax x ltac:(discriminate) eq_refl); lia].
      exists c, g, x, s0. repeat (split; [first [reflexivity | assumption]|]). auto.
    - do 3 eexists. exists (empty_axes g). cbn. split; [reflexivity|]. split; [reflexivity|]. cbn. rewrite nth_error_app2, Nat.sub_diag by lia. auto.
    - do 3 eexists. exists (empty_axes (cv_figs c)). cbn. split; [reflexivity|]. split; [reflexivity|]. cbn. rewrite nth_error_app2, Nat.sub_diag by lia. destruct ax; auto. }
  destruct (curves_loop_run h b f a title ylabel cs c1 s0 E0) as (s & R & K1 & K2 & K3 & K4).
  assert (E' : curves_plot h cs b fig ax title ylabel label c = (mkcanvas (cv_figs c1) (change a (fun _ => s) (cv_axes c1)), Ok (f, a))).
  { unfold curves_plot. unfold and_then at 1. rewrite E. cbn [fst snd]. unfold and_then at 1. rewrite R. reflexivity. }
  rewrite E'. cbn [fst snd cv_figs cv_axes]. exists f, a, s0, s. split; [reflexivity|]. split; [exact Ef|]. split; [exact H0|].
  split; [apply (change_same a (fun _ => s) _ s0 E0)|]. split; [exact K1|]. split; [exact K2|]. split; [exact K3|]. split; [exact K4|exact Hf].
Qed.

(** Modulus and damping curves together: two new figures, the first with all moduli, the second with all damping curves. *)
Theorem C112_both : forall h gs ds c, exists s1 s2,
  both_plot h gs ds c = (mkcanvas (S (S (cv_figs c))) (cv_axes c ++ [s1; s2]), Ok tt) /\
  ax_fig s1 = cv_figs c /\ ax_fig s2 = S (cv_figs c) /\
  ax_lines s1 = map (fun cu => line_of (shown_data h cu true) None) gs /\ ax_lines s2 = map (fun cu => line_of (shown_data h cu true) None) ds /\
  (gs <> [] -> ax_ylabel s1 = Some "$G/G_{\max}$") /\ (ds <> [] -> ax_ylabel s2 = Some "Damping [%]").
Proof.
  intros h gs ds c. unfold both_plot, ggmax_curves_plot, damping_curves_plot, curves_plot.
  assert (K : forall cs y c0, exists s, (do fa <- fig_ax None None; do _ <- curves_loop h cs true (fst fa) (snd fa) None (Some y); done fa) c0 =
      (mkcanvas (S (cv_figs c0)) (cv_axes c0 ++ [s]), Ok (cv_figs c0, List.length (cv_axes c0))) /\ ax_fig s = cv_figs c0 /\
      ax_lines s = map (fun cu => line_of (shown_data h cu true) None) cs /\ (cs <> [] -> y <> "" -> ax_ylabel s = Some y)).
  { intros cs y c0. set (c1 := mkcanvas (S (cv_figs c0)) (cv_axes c0 ++ [empty_axes (cv_figs c0)])).
    destruct (curves_loop_run h true (cv_figs c0) (List.length (cv_axes c0)) None (Some y) cs c1 (empty_axes (cv_figs c0))) as (s & R & K1 & K2 & K3 & K4).
    { cbn. rewrite nth_error_app2, Nat.sub_diag by lia. reflexivity. }
    exists s. change (fig_ax None None) with (fig_ax None None). unfold and_then at 1. change (fig_ax None None c0) with (c1, Ok (cv_figs c0, List.length (cv_axes c0)) : res (nat * nat)). cbn [fst snd].
    unfold and_then at 1. rewrite R. unfold done. cbn [c1 cv_axes cv_figs]. rewrite change_last. split; [reflexivity|]. split; [exact K1|]. split; [exact K3|].
    intros Hne Hy. destruct (K4 Hne) as [_ K5]. rewrite K5. unfold truthy. rewrite (proj2 (String.eqb_neq _ _) Hy). reflexivity. }
  destruct (K gs "$G/G_{\max}$" c) as (s1 & R1 & F1 & L1 & Y1). unfold and_then at 1. rewrite R1.
  destruct (K ds "Damping [%]" (mkcanvas (S (cv_figs c)) (cv_axes c ++ [s1]))) as (s2 & R2 & F2 & L2 & Y2). unfold and_then at 1. rewrite R2. cbn [cv_figs cv_axes] in *.
  exists s1, s2. rewrite <- app_assoc. split; [reflexivity|]. do 4 (split; [assumption|]). split; intros H; [apply Y1|apply Y2]; congruence.
Qed.

(** Spectra: the amplitude or the real part against the frequency. *)
Theorem C112_spectrum : forall s file b fig ax label c,
  (forall g, ax = Some g -> (g < List.length (cv_axes c))%nat) -> List.length (fs_freq s) = List.length (fs_spec s) ->
  exists f a s0 y, snd (fs_plot s file b fig ax label c) = Ok (f, a) /\
    f = match fig with Some g => g | None => cv_figs c end /\
    match ax with Some g => a = g /\ nth_error (cv_axes c) g = Some s0 | None => a = List.length (cv_axes c) /\ s0 = empty_axes f end /\
    nth_error (cv_axes (fst (fs_plot s file b fig ax label c))) a =
      Some (with_line (mkline (fs_freq s) y label) file (Some "Amplitude or phase") None None s0) /\
    List.length y = List.length (fs_spec s) /\
    (forall k z, nth_error (fs_spec s) k = Some z -> nth_error y k = Some (if b then sqrt (Re z * Re z + Im z * Im z) else Re z)).
Proof.
  intros s file b fig ax label c Hax HL. destruct (C109_choice fig ax c) as (f & a & E & F & G). destruct (fig_ax fig ax c) as [c1 r] eqn:Ef. cbn [fst snd] in *. subst r.
  assert (exists s0, nth_error (cv_axes c1) a = Some s0 /\ match ax with Some b => a = b /\ nth_error (cv_axes c) b = Some s0 | None => a = List.length (cv_axes c) /\ s0 = empty_axes f end) as (s0 & E0 & H0).
  { destruct ax as [g|].
    - destruct G as [-> G]. rewrite G. destruct (nth_error (cv_axes c) g) as [s0|] eqn:E0; [exists s0; auto|]. apply nth_error_None in E0. specialize (Hax g eq_refl). lia.
    - exists (empty_axes f). split; [|split; [apply G|reflexivity]]. destruct fig; cbn in Ef; injection Ef as <- <- <-; cbn [cv_axes]; rewrite nth_error_app2, Nat.sub_diag by lia; reflexivity. }
  set (y := if b then amplitude s else map Re (fs_spec s)).
  assert (Ly : List.length y = List.length (fs_spec s)) by (unfold y, amplitude; destruct b; apply map_length).
  assert (R : fs_plot s file b fig ax label c = (mkcanvas (cv_figs c1) (change a (with_line (mkline (fs_freq s) y label) file (Some "Amplitude or phase") None None) (cv_axes c1)), Ok (f, a))).
  { unfold fs_plot. unfold and_then at 1. rewrite Ef. cbn [fst snd]. fold y. unfold draw. rewrite HL, Ly, Nat.eqb_refl.
    unfold with_line, truthy, title_if. destruct file as [t|]; [destruct (String.eqb t "") eqn:Et|];
      unfold and_then, set_ylabel, set_title, on, done; cbn [cv_figs cv_axes negb]; rewrite ?change_twice; reflexivity. }
  rewrite R. cbn [fst snd cv_axes]. exists f, a, s0, y. split; [reflexivity|]. split; [destruct fig; apply F|]. split; [exact H0|].
  split; [apply (change_same _ _ _ _ E0)|]. split; [exact Ly|]. intros k z Hz. unfold y, amplitude. destruct b.
  - rewrite (map_nth_error Cmod _ _ Hz). f_equal. unfold Cmod, Re, Im. f_equal. cbn. ring.
  - apply (map_nth_error Re _ _ Hz).
Qed.

(** A plot of the raw data of a curve given in strain units of 1: in percent if the curve was not interpolated, but as given (under
    the same label [Strain in percent]) if it was. *)
Theorem C112_raw_units : forall h loc it chk h' cu,
  (loc < List.length h)%nat -> curve_init h loc S1 it chk = (h', Ok cu) ->
  line_of (shown_data h' cu false) None =
    mkline (map (fun p => match it with None => fst p * 100 | Some _ => fst p end) (sig_at h loc)) (map snd (sig_at h loc)) None.
Proof.
  intros h loc it chk h' cu Hl E. unfold curve_init in E. destruct (chk && _); [discriminate|]. destruct it as [[[[lo hi] n] lg]|].
  - destruct (interpolate lo hi n (sig_at h loc) lg) as [s|e]; [|discriminate]. injection E as <- <-. unfold line_of, shown_data. cbn [c_raw].
    assert (K : sig_at (upd (h ++ [s]) (List.length h) (scale0 100)) loc = sig_at h loc).
    { unfold upd, sig_at. rewrite set_nth_other by lia. rewrite app_nth1 by exact Hl. reflexivity. }
    rewrite K. reflexivity.
  - injection E as <- <-. unfold line_of, shown_data. cbn [c_raw]. unfold upd. rewrite sig_at_set by exact Hl. unfold scale0. rewrite !map_map. reflexivity.
Qed.

(** Two curves drawn on axes given with and without their figure. *)
Example C112_instance :
  let h := [[(1, 2); (3, 4)]; [(5, 6)]] in
  let cs := [mkcurve 0 0; mkcurve 1 1] in
  let c := mkcanvas 1 [empty_axes 0] in
  (exists s, nth_error (cv_axes (fst (curves_plot h cs true (Some 0%nat) (Some 0%nat) None None (Some "soft") c))) 0 = Some s /\
     ax_lines s = [mkline [1; 3] [2; 4] None; mkline [5] [6] None]) /\
  nth_error (cv_axes (fst (curves_plot h cs true None (Some 0%nat) None None None c))) 0 = Some (empty_axes 0) /\
  snd (curves_plot h cs true None (Some 0%nat) None None None c) = Ok (1%nat, 1%nat) /\
  (exists s, nth_error (cv_axes (fst (curve_plot h (mkcurve 0 0) true None (Some 0%nat) None None (Some "soft") c))) 0 = Some s /\
     ax_lines s = [mkline [1; 3] [2; 4] (Some "soft")] /\ snd (curve_plot h (mkcurve 0 0) true None (Some 0%nat) None None (Some "soft") c) = Ok (1%nat, 0%nat)) /\
  (exists h' cu, curve_init h 0 S1 None true = (h', Ok cu)).
Proof.
  cbv zeta. split; [eexists; split; reflexivity|]. split; [reflexivity|]. split; [reflexivity|]. split; [eexists; split; [reflexivity|]; split; reflexivity|].
  do 2 eexists. unfold curve_init, sig_at, neg_cell. cbn [nth existsb fst snd].
  repeat match goal with |- context [Rltb ?a ?b] => replace (Rltb a b) with false by (symmetry; unfold Rltb; destruct (Rlt_dec a b); [lra|reflexivity]) end. reflexivity.
Qed.
