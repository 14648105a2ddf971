(** C126: figures of filters and of baseline correction. *)
From Coq Require Import Reals List Bool ZArith Lia Lra Psatz String.
From Coquelicot Require Import Complex.
From Coq Require Import List.
From Verif Require Import Base M_generic M_motion M_amplify M_signal M_figures M_filtfig.
From Verif Require Import P_generic P_motion Prop_fourier Prop_filter Prop_baseline Prop_freqspec P_figures Prop_figres.
Import ListNotations.
Open Scope string_scope.
Open Scope list_scope.
Open Scope R_scope.

Lemma run_title {B} t (k : unit -> draws B) n l s a : a = List.length l ->
  and_then (set_title a t) k (mkcanvas n (l ++ [s])) = k tt (mkcanvas n (l ++ [mkaxes (ax_fig s) (ax_lines s) (ax_texts s) (Some t) (ax_ylabel s) (ax_xlim s) (ax_ylim s) (ax_shown s)])).
Proof. intros E. unfold set_title. rewrite run_on by exact E. reflexivity. Qed.

(** Spectra have half as many rows as the signal has samples, rounded up. *)
Lemma amplitude_ok s : (2 <= List.length s)%nat -> exists X, fourier_amplitude s false = Ok X /\ List.length X = Nat.div (List.length s + 1) 2.
Proof.
  intros H. destruct (proj1 (C32_shape s false) _ (P_motion.first_step_ok s H)) as (X & E & L & _). exists (map (fun p => (fst p, Cmod (snd p))) X). unfold fourier_amplitude. rewrite E. split; [reflexivity|]. rewrite map_length. exact L.
Qed.

Lemma with_vals_len s y : List.length y = List.length s -> List.length (with_vals s y) = List.length s.
Proof. apply P_motion.with_vals_length. Qed.

Section C126.
Variable butter : nat -> fkind -> list R -> list section.
Variable auto : list line -> R * R.

(** ** Filters *)

(** One panel of amplitudes: the spectrum, then one vertical line for each cutoff. *)
Definition vertical (yl : R * R) (x : R) : line := mkline [x; x] [fst yl; snd yl] None.
Definition amplitude_panel (f : nat) (X : signal) (cut : list R) (top : R) : axes :=
  let spectrum := mkline (times X) (vals X) None in
  mkaxes f (spectrum :: map (vertical (auto [spectrum])) cut) [] None (Some "Fourier amplitude") None (Some (0, top)) true.
Definition signal_panel (f : nat) (title : string) (t x : list R) : axes :=
  mkaxes f [mkline t x None] [] (Some title) (Some "Signal") None None true.

Lemma run_cutoffs yl cut : forall {B} (k : unit -> draws B) n l s, 
  and_then (cutoff_lines (List.length l) yl cut) k (mkcanvas n (l ++ [s])) =
  k tt (mkcanvas n (l ++ [mkaxes (ax_fig s) (ax_lines s ++ map (vertical yl) cut) (ax_texts s) (ax_title s) (ax_ylabel s) (ax_xlim s) (ax_ylim s) (ax_shown s)])).
Proof.
  induction cut as [|x cut IH]; intros B k n l s; cbn [cutoff_lines map].
  - rewrite app_nil_r. destruct s. reflexivity.
  - rewrite run_assoc. rewrite run_draw by reflexivity. cbv beta. rewrite IH. cbn [plus_line ax_fig ax_lines ax_texts ax_title ax_ylabel ax_xlim ax_ylim ax_shown]. rewrite <- app_assoc. reflexivity.
Qed.

Lemma run_spectrum {B} f s X cut top (k : unit -> draws B) n l : fourier_amplitude s false = Ok X -> rmax1 (skipn 1 (vals X)) = Ok top ->
  and_then (spectrum_panel auto f s cut) k (mkcanvas n l) = k tt (mkcanvas n (l ++ [amplitude_panel f X cut top])).
Proof.
  intros E T. unfold spectrum_panel. rewrite !run_assoc, run_sub. rewrite run_assoc, E. change (and_then (lift (Ok X)) ?q) with (q X). cbv beta.
  rewrite run_assoc. rewrite run_draw by (try reflexivity; rewrite times_length, vals_length; reflexivity). rewrite run_assoc, run_cutoffs. rewrite run_assoc, T. change (and_then (lift (Ok top)) ?q) with (q top). cbv beta.
  rewrite run_assoc. rewrite run_ylim by reflexivity. rewrite run_ylabel by reflexivity. reflexivity.
Qed.

(** The cutoffs marked: those of the filter that is really applied. *)
Definition marked (dt : R) (n : nat) (c : cutoff) (cut : list R) : Prop :=
  match c with
  | CNum f => cut = [f]
  | CSeq [lo; hi] =>
      (hi >= nyquist dt * (9999 / 10000) /\ cut = [lo]) \/
      (hi < nyquist dt * (9999 / 10000) /\ lo <= 1 / (INR n * dt) /\ cut = [hi]) \/
      (hi < nyquist dt * (9999 / 10000) /\ lo > 1 / (INR n * dt) /\ cut = [lo; hi])
  | _ => False
  end.

(** Every call with [show_fig] is the call without, followed by the figure if a new array was made. *)
Definition then_figure (s : signal) (cut : list R) (o : res fout) : draws fout :=
  do r <- lift o; match r with FNew out => do _ <- filter_figure auto s out cut; done r | FSame => done r end.

Lemma low_show s f order c : (filter_low_show butter auto false s f order c = (c, filter_low butter s f order)) /\
  filter_low_show butter auto true s f order c = then_figure s [f] (filter_low butter s f order) c.
Proof.
  unfold filter_low_show, filter_low, then_figure. destruct (first_step s) as [dt|e]; [|split; reflexivity]. change (and_then (lift (Ok dt)) ?q) with (q dt). cbv beta. cbn [bind].
  destruct (Rleb (nyquist dt) f); [split; reflexivity|]. unfold filter_and_show. destruct (design butter order Lowpass _ s) as [[|out]|e]; split; reflexivity.
Qed.
Lemma high_show s f order c : (filter_high_show butter auto false s f order c = (c, filter_high butter s f order)) /\
  filter_high_show butter auto true s f order c = then_figure s [f] (filter_high butter s f order) c.
Proof.
  unfold filter_high_show, filter_high, then_figure. destruct (first_step s) as [dt|e]; [|split; reflexivity]. change (and_then (lift (Ok dt)) ?q) with (q dt). cbv beta. cbn [bind].
  destruct (Rleb f 0); [split; reflexivity|]. unfold filter_and_show. destruct (design butter order Highpass _ s) as [[|out]|e]; split; reflexivity.
Qed.

Lemma kernel_show s cf k order c : filter_kernel_show butter auto false s cf k order c = (c, filter_kernel butter s cf k order) /\
  ((exists e, filter_kernel butter s cf k order = Err e /\ filter_kernel_show butter auto true s cf k order c = (c, Err e)) \/
   (exists dt cut, first_step s = Ok dt /\ marked dt (List.length s) cf cut /\ filter_kernel_show butter auto true s cf k order c = then_figure s cut (filter_kernel butter s cf k order) c)).
Proof.
  assert (FS : forall f, filter_low butter s f order = Err IndexError /\ first_step s = Err IndexError \/ exists dt, first_step s = Ok dt).
  { intros f. destruct (Nat.lt_ge_cases (List.length s) 2) as [H|H]; [left|right; eexists; apply P_motion.first_step_ok, H]. assert (E : first_step s = Err IndexError) by (destruct s as [|p [|q s]]; [reflexivity|reflexivity|cbn in H; lia]). unfold filter_low. rewrite E. auto. }
  assert (ERR : forall e, first_step s = Err e -> (forall f, filter_low butter s f order = Err e) /\ (forall f, filter_high butter s f order = Err e)).
  { intros e E. split; intros f; unfold filter_low, filter_high; rewrite E; reflexivity. }
  assert (ONE : forall f (d : res fout) (sh : bool -> draws fout), (forall e, first_step s = Err e -> d = Err e) -> (sh false c = (c, d)) -> sh true c = then_figure s [f] d c ->
    sh false c = (c, d) /\ ((exists e, d = Err e /\ sh true c = (c, Err e)) \/ (exists dt, first_step s = Ok dt /\ sh true c = then_figure s [f] d c))).
  { intros f d sh He H1 H2. split; [exact H1|]. destruct (first_step s) as [dt|e]; [right; eauto|left]. exists e. rewrite (He e eq_refl) in *. split; [reflexivity|]. rewrite H2. reflexivity. }
  assert (BAD : forall e, filter_kernel butter s cf k order = Err e -> (forall b, filter_kernel_show butter auto b s cf k order c = (c, Err e)) ->
     filter_kernel_show butter auto false s cf k order c = (c, filter_kernel butter s cf k order) /\
     ((exists e, filter_kernel butter s cf k order = Err e /\ filter_kernel_show butter auto true s cf k order c = (c, Err e)) \/
      (exists dt cut, first_step s = Ok dt /\ marked dt (List.length s) cf cut /\ filter_kernel_show butter auto true s cf k order c = then_figure s cut (filter_kernel butter s cf k order) c))).
  { intros e E1 E2. rewrite E1. split; [apply E2|left; eauto]. }
  destruct k.
  - destruct cf as [f|l|]; try (eapply BAD; reflexivity). destruct (low_show s f order c) as [A B]. cbn [filter_kernel_show filter_kernel].
    destruct (ONE f (filter_low butter s f order) (fun b => filter_low_show butter auto b s f order)) as (C1 & [C2|(dt & C2 & C3)]); auto; [intros e E; apply ERR, E|]. split; [auto|]. right. exists dt, [f]. cbn. auto.
  - destruct cf as [f|l|]; try (eapply BAD; reflexivity). destruct (high_show s f order c) as [A B]. cbn [filter_kernel_show filter_kernel].
    destruct (ONE f (filter_high butter s f order) (fun b => filter_high_show butter auto b s f order)) as (C1 & [C2|(dt & C2 & C3)]); auto; [intros e E; apply ERR, E|]. split; [auto|]. right. exists dt, [f]. cbn. auto.
  - destruct cf as [f|l|]; try (eapply BAD; reflexivity). destruct l as [|lo [|hi [|z l]]]; try (eapply BAD; reflexivity). cbn [filter_kernel_show filter_kernel] in *.
    destruct (Rleb hi lo) eqn:EL; [split; [reflexivity|left; eexists; split; reflexivity]|].
    destruct (first_step s) as [dt|e] eqn:EF; [|split; [reflexivity|left; exists e; split; reflexivity]]. change (and_then (lift (Ok dt)) ?q) with (q dt). cbv beta zeta. cbn [bind].
    destruct (Rleb (nyquist dt * (9999 / 10000)) hi) eqn:E1.
    { apply Rleb_true in E1. destruct (high_show s lo order c) as [A B]. split; [exact A|right]. exists dt, [lo]. split; [reflexivity|]. split; [left; split; [lra|reflexivity]|exact B]. }
    apply Rleb_false in E1. destruct (Rleb lo (1 / (INR (List.length s) * dt))) eqn:E2.
    { apply Rleb_true in E2. destruct (low_show s hi order c) as [A B]. split; [exact A|right]. exists dt, [hi]. split; [reflexivity|]. split; [right; left; auto|exact B]. }
    apply Rleb_false in E2. unfold filter_and_show, then_figure. split; [destruct (design butter order Bandpass _ s) as [[|out]|e]; reflexivity|right]. exists dt, [lo; hi]. split; [reflexivity|]. split; [right; right; split; [exact E1|split; [exact E2|reflexivity]]|].
    destruct (design butter order Bandpass _ s) as [[|out]|e]; reflexivity.
  - destruct cf as [f|l|]; try (eapply BAD; reflexivity). destruct l as [|lo [|hi [|z l]]]; try (eapply BAD; reflexivity). cbn [filter_kernel_show filter_kernel] in *.
    destruct (Rleb hi lo) eqn:EL; [split; [reflexivity|left; eexists; split; reflexivity]|].
    destruct (first_step s) as [dt|e] eqn:EF; [|split; [reflexivity|left; exists e; split; reflexivity]]. change (and_then (lift (Ok dt)) ?q) with (q dt). cbv beta zeta. cbn [bind].
    destruct (Rleb (nyquist dt * (9999 / 10000)) hi) eqn:E1.
    { apply Rleb_true in E1. destruct (low_show s lo order c) as [A B]. split; [exact A|right]. exists dt, [lo]. split; [reflexivity|]. split; [left; split; [lra|reflexivity]|exact B]. }
    apply Rleb_false in E1. destruct (Rleb lo (1 / (INR (List.length s) * dt))) eqn:E2.
    { apply Rleb_true in E2. destruct (high_show s hi order c) as [A B]. split; [exact A|right]. exists dt, [hi]. split; [reflexivity|]. split; [right; left; auto|exact B]. }
    apply Rleb_false in E2. unfold filter_and_show, then_figure. split; [destruct (design butter order Bandstop _ s) as [[|out]|e]; reflexivity|right]. exists dt, [lo; hi]. split; [reflexivity|]. split; [right; right; split; [exact E1|split; [exact E2|reflexivity]]|].
    destruct (design butter order Bandstop _ s) as [[|out]|e]; reflexivity.
  - eapply BAD; reflexivity.
Qed.

(** A new array has the times of the signal. *)
Lemma design_times order k Wn s out : design butter order k Wn s = Ok (FNew out) -> times out = times s /\ List.length out = List.length s.
Proof.
  unfold design. destruct (forallb _ Wn); [|discriminate]. intros E. assert (out = with_vals s (sosfilt (butter order k Wn) (vals s))) as -> by congruence.
  assert (L : List.length (sosfilt (butter order k Wn) (vals s)) = List.length s) by (rewrite sosfilt_length, vals_length; reflexivity). rewrite times_with_vals by exact L. split; [reflexivity|apply with_vals_len, L].
Qed.
Lemma kernel_times s cf k order out : filter_kernel butter s cf k order = Ok (FNew out) -> times out = times s /\ List.length out = List.length s.
Proof.
  assert (LO : forall f, filter_low butter s f order = Ok (FNew out) -> times out = times s /\ List.length out = List.length s).
  { intros f. unfold filter_low. destruct (first_step s); cbn [bind]; [|discriminate]. destruct (Rleb _ _); [discriminate|apply design_times]. }
  assert (HI : forall f, filter_high butter s f order = Ok (FNew out) -> times out = times s /\ List.length out = List.length s).
  { intros f. unfold filter_high. destruct (first_step s); cbn [bind]; [|discriminate]. destruct (Rleb _ _); [discriminate|apply design_times]. }
  destruct k; destruct cf as [f|[|lo [|hi [|z l]]]|]; cbn [filter_kernel]; try discriminate; try apply LO; try apply HI.
  - destruct (Rleb hi lo); [discriminate|]. destruct (first_step s); cbn [bind]; [|discriminate]. cbv zeta. destruct (Rleb _ hi); [apply HI|]. destruct (Rleb lo _); [apply LO|apply design_times].
  - destruct (Rleb hi lo); [discriminate|]. destruct (first_step s); cbn [bind]; [|discriminate]. cbv zeta. destruct (Rleb _ hi); [apply LO|]. destruct (Rleb lo _); [apply HI|apply design_times].
Qed.

Lemma rmax1_ok l : l <> [] -> exists m, rmax1 l = Ok m.
Proof. destruct l as [|x l]; [congruence|intros _; eexists; reflexivity]. Qed.

(** The result does not depend on [show_fig] for three samples or more.  A call that fails or hands back the signal
    draws nothing; otherwise one figure of four panels shows the signal, the result and their amplitudes, with the
    cutoffs of the filter that was applied and the vertical axis up to the largest amplitude but the first. *)
Theorem C126_filter : forall s cf k order c,
  filter_kernel_show butter auto false s cf k order c = (c, filter_kernel butter s cf k order) /\
  match filter_kernel butter s cf k order with
  | Err e => filter_kernel_show butter auto true s cf k order c = (c, Err e)
  | Ok FSame => filter_kernel_show butter auto true s cf k order c = (c, Ok FSame)
  | Ok (FNew out) => (3 <= List.length s)%nat -> exists dt cut X Y top top', let f := cv_figs c in
      first_step s = Ok dt /\ marked dt (List.length s) cf cut /\ times out = times s /\
      fourier_amplitude s false = Ok X /\ fourier_amplitude out false = Ok Y /\
      greatest (tl (vals X)) top /\ greatest (tl (vals Y)) top' /\
      filter_kernel_show butter auto true s cf k order c =
        (mkcanvas (S f) (cv_axes c ++
           [signal_panel f "Original" (times s) (vals s); signal_panel f "After filtering" (times out) (vals out);
            amplitude_panel f X cut top; amplitude_panel f Y cut top']), Ok (FNew out))
  end.
Proof.
  intros s cf k order c. destruct (kernel_show s cf k order c) as (A & B). split; [exact A|]. destruct B as [(e & E & B)|(dt & cut & Ed & Em & B)].
  { rewrite E. exact B. }
  destruct (filter_kernel butter s cf k order) as [[|out]|e] eqn:EK; [rewrite B; reflexivity| |rewrite B; reflexivity].
  intros H3. destruct (kernel_times _ _ _ _ _ EK) as [Ht Hl]. destruct (amplitude_ok s ltac:(lia)) as (X & EX & LX). destruct (amplitude_ok out ltac:(lia)) as (Y & EY & LY).
  assert (D2 : (2 <= (List.length s + 1) / 2)%nat) by (apply Nat.div_le_lower_bound; lia).
  assert (NE : forall Z : signal, (2 <= List.length Z)%nat -> skipn 1 (vals Z) <> []) by (intros [|p [|q Z]] Q; cbn in *; try lia; discriminate).
  destruct (rmax1_ok (skipn 1 (vals X))) as (top & ET); [apply NE; lia|]. destruct (rmax1_ok (skipn 1 (vals Y))) as (top' & ET'); [apply NE; rewrite LY, Hl; exact D2|].
  assert (TL : forall l : list R, skipn 1 l = tl l) by (intros [|? ?]; reflexivity).
  exists dt, cut, X, Y, top, top'. cbv zeta. rewrite <- !TL. repeat (split; [first [assumption|apply rmax1_greatest; assumption]|]).
  rewrite B. unfold then_figure. change (and_then (lift (Ok (FNew out))) ?q) with (q (FNew out)). cbv beta iota. destruct c as [n l]. unfold filter_figure. rewrite run_assoc. change (and_then new_figure ?q (mkcanvas n l)) with (q n (mkcanvas (S n) l)). cbv beta.
  rewrite run_assoc, run_sub. rewrite run_assoc. rewrite run_draw by (try reflexivity; rewrite times_length, vals_length; reflexivity). rewrite run_assoc. rewrite run_title by reflexivity. rewrite run_assoc. rewrite run_ylabel by reflexivity.
  rewrite run_assoc, run_sub. rewrite run_assoc. rewrite run_draw by (try reflexivity; rewrite times_length, vals_length; congruence). rewrite run_assoc. rewrite run_title by reflexivity. rewrite run_assoc. rewrite run_ylabel by reflexivity.
  rewrite run_assoc. rewrite (run_spectrum _ _ _ _ _ _ _ _ EX ET). rewrite (run_spectrum _ _ _ _ _ _ _ _ EY ET'). unfold done. cbn [cv_figs cv_axes]. rewrite Ht, <- !app_assoc. reflexivity.
Qed.

(** Two samples: a filter that works without [show_fig] fails with it, leaving a figure of three panels. *)
Theorem C126_two_samples : forall p q cf k order c out, filter_kernel butter [p; q] cf k order = Ok (FNew out) ->
  exists c', filter_kernel_show butter auto true [p; q] cf k order c = (c', Err ValueError) /\
    cv_figs c' = S (cv_figs c) /\ List.length (cv_axes c') = (List.length (cv_axes c) + 3)%nat.
Proof.
  intros p q cf k order c out EK. destruct (kernel_show [p; q] cf k order c) as (_ & [(e & E & _)|(dt & cut & _ & _ & B)]); [congruence|]. rewrite EK in B. rewrite B. clear B.
  destruct (kernel_times _ _ _ _ _ EK) as [Ht Hl]. destruct (amplitude_ok [p; q] ltac:(cbn; lia)) as (X & EX & LX). assert (SX : skipn 1 (vals X) = []) by (destruct X as [|x [|y X]]; [discriminate|reflexivity|discriminate]).
  unfold then_figure. change (and_then (lift (Ok (FNew out))) ?q) with (q (FNew out)). cbv beta iota. destruct c as [n l]. unfold filter_figure. rewrite run_assoc. change (and_then new_figure ?q (mkcanvas n l)) with (q n (mkcanvas (S n) l)). cbv beta.
  rewrite run_assoc, run_sub. rewrite run_assoc. rewrite run_draw by reflexivity. rewrite run_assoc. rewrite run_title by reflexivity. rewrite run_assoc. rewrite run_ylabel by reflexivity.
  rewrite run_assoc, run_sub. rewrite run_assoc. rewrite run_draw by (try reflexivity; rewrite times_length, vals_length; congruence). rewrite run_assoc. rewrite run_title by reflexivity. rewrite run_assoc. rewrite run_ylabel by reflexivity.
  rewrite run_assoc. unfold spectrum_panel at 1. rewrite run_assoc, run_sub, run_assoc, EX. change (and_then (lift (Ok X)) ?q) with (q X). cbv beta. rewrite run_assoc. rewrite run_draw by (try reflexivity; rewrite times_length, vals_length; reflexivity).
  rewrite run_assoc, run_cutoffs, run_assoc, SX. eexists. split; [reflexivity|]. cbn [cv_figs cv_axes]. rewrite !app_length. cbn. split; [reflexivity|lia].
Qed.

(** If the limits matplotlib chooses contain what is drawn, every cutoff line spans all amplitudes. *)
Theorem C126_cutoffs_span : forall f X cut top, (forall l y, In y (flat_map l_y l) -> fst (auto l) <= y <= snd (auto l)) ->
  forall x, In x cut -> exists lo hi, In (mkline [x; x] [lo; hi] None) (ax_lines (amplitude_panel f X cut top)) /\ forall y, In y (vals X) -> lo <= y <= hi.
Proof.
  intros f X cut top H x Hx. set (sp := mkline (times X) (vals X) None). exists (fst (auto [sp])), (snd (auto [sp])). split.
  - right. apply (in_map (vertical (auto [sp]))) in Hx. exact Hx.
  - intros y Hy. apply H. cbn. rewrite app_nil_r. exact Hy.
Qed.

(** ** Baseline correction *)

Definition mean5 (x : list R) : R := (nth 0 x 0 + nth 1 x 0 + nth 2 x 0 + nth 3 x 0 + nth 4 x 0) / 5.
Definition named (f : nat) (title : option string) (yl : string) (s : signal) : axes :=
  mkaxes f [mkline (times s) (vals s) None] [] title (Some yl) None None true.

Lemma baseline_shape s fr r : baseline butter s fr = Ok r -> (5 <= List.length s)%nat /\ List.length r = List.length s /\ times r = times s.
Proof.
  intros E. destruct (Nat.lt_ge_cases (List.length s) 5) as [H|H].
  { exfalso. unfold baseline in E. rewrite (proj1 (core_errors butter s fr) H) in E. discriminate. }
  split; [exact H|]. destruct (baseline_core butter s fr) as [y|] eqn:EC; [|unfold baseline in E; rewrite EC in E; discriminate].
  assert (L : List.length y = List.length s).
  { unfold baseline_core in EC. rewrite P_motion.first_step_ok in EC by lia. cbn [bind] in EC. cbv zeta in EC. destruct (Nat.ltb _ 5); [discriminate|]. destruct (Reqb fr 0); [discriminate|].
    match type of EC with bind ?d _ = _ => destruct d as [o|] end; cbn [bind] in EC; [|discriminate].
    match type of EC with Ok (if Nat.leb _ (List.length ?z) then _ else _) = _ => set (Z := z) in EC end. rewrite vals_length in EC. destruct (Nat.leb_spec (List.length s) (List.length Z)) as [Q|Q]; assert (EY : y = _) by (symmetry; apply (f_equal (fun o => match o with Ok v => v | Err _ => y end)) in EC; exact EC); rewrite EY.
    - rewrite firstn_length. lia.
    - rewrite app_length, repeat_length. lia. }
  destruct (baseline_steps butter s fr y ltac:(lia) EC L) as (v & u & v2 & r' & _ & _ & _ & Er & _ & _ & _ & _ & Tr & Lr & _). assert (r' = r) as -> by congruence. auto.
Qed.

(** The correction does not depend on [show_fig]; a call that fails draws nothing, any other one figure of seven panels. *)
Theorem C126_baseline : forall s fr c,
  baseline_show butter false s fr c = (c, baseline butter s fr) /\
  match baseline butter s fr with
  | Err e => baseline_show butter true s fr c = (c, Err e)
  | Ok r => exists v u v' u' X Y top, let f := cv_figs c in
      num_int s = Ok (v, u) /\ num_int r = Ok (v', u') /\ fourier_amplitude s false = Ok X /\ fourier_amplitude r false = Ok Y /\ greatest (tl (vals X)) top /\
      baseline_show butter true s fr c =
        (mkcanvas (S f) (cv_axes c ++
          [named f (Some "Uncorrected") "Acceleration" (map (fun p => (fst p, snd p - mean5 (vals s))) s); named f None "Velocity" v; named f None "Displacement" u;
           named f (Some "Baseline corrected") "Acceleration" r; named f None "Velocity" v'; named f None "Displacement" u';
           mkaxes f [mkline (times X) (vals X) None; mkline (times Y) (vals Y) None] [] (Some "Fourier spectra") None None (Some (0, top)) true]), Ok r)
  end.
Proof.
  intros s fr c. unfold baseline_show. destruct (baseline butter s fr) as [r|e] eqn:E; [|split; reflexivity]. split; [reflexivity|]. destruct (baseline_shape s fr r E) as (H5 & Lr & Tr).
  destruct (num_int_spec s ltac:(lia)) as (v & u & Ev & Tv & Tu & Lv & Lu & _). destruct (num_int_spec r ltac:(lia)) as (v' & u' & Ev' & Tv' & Tu' & Lv' & Lu' & _).
  destruct (amplitude_ok s ltac:(lia)) as (X & EX & LX). destruct (amplitude_ok r ltac:(lia)) as (Y & EY & LY).
  assert (D2 : (2 <= (List.length s + 1) / 2)%nat) by (apply Nat.div_le_lower_bound; lia).
  assert (TL : forall l : list R, skipn 1 l = tl l) by (intros [|? ?]; reflexivity).
  destruct (rmax1_ok (skipn 1 (vals X))) as (top & ET); [destruct X as [|p [|q X]]; cbn [List.length] in LX; [lia|lia|cbn; discriminate]|].
  exists v, u, v', u', X, Y, top. cbv zeta. rewrite <- TL. repeat (split; [first [assumption|apply rmax1_greatest; assumption]|]).
  change (and_then (lift (Ok r)) ?q) with (q r). cbv beta iota. unfold baseline_figure. rewrite run_assoc, Ev. change (and_then (lift (Ok (v, u))) ?q) with (q (v, u)). cbv beta. rewrite run_assoc, Ev'. change (and_then (lift (Ok (v', u'))) ?q) with (q (v', u')). cbv beta. cbn [fst snd].
  destruct c as [n l]. rewrite run_assoc. change (and_then new_figure ?q (mkcanvas n l)) with (q n (mkcanvas (S n) l)). cbv beta.
  rewrite run_assoc, run_sub, run_assoc. rewrite run_draw by (try reflexivity; rewrite map_length, times_length, vals_length; reflexivity). rewrite run_assoc. rewrite run_title by reflexivity. rewrite run_assoc. rewrite run_ylabel by reflexivity.
  do 2 (rewrite run_assoc, run_sub, run_assoc; rewrite run_draw by (try reflexivity; rewrite times_length, vals_length; reflexivity); rewrite run_assoc; rewrite run_ylabel by reflexivity).
  rewrite run_assoc, run_sub, run_assoc. rewrite run_draw by (try reflexivity; rewrite times_length, vals_length; reflexivity). rewrite run_assoc. rewrite run_title by reflexivity. rewrite run_assoc. rewrite run_ylabel by reflexivity.
  do 2 (rewrite run_assoc, run_sub, run_assoc; rewrite run_draw by (try reflexivity; rewrite times_length, vals_length; reflexivity); rewrite run_assoc; rewrite run_ylabel by reflexivity).
  rewrite run_assoc, EX. change (and_then (lift (Ok X)) ?q) with (q X). cbv beta. rewrite run_assoc, EY. change (and_then (lift (Ok Y)) ?q) with (q Y). cbv beta.
  rewrite run_assoc, run_sub, run_assoc. rewrite run_draw by (try reflexivity; rewrite times_length, vals_length; reflexivity). rewrite run_assoc. rewrite run_draw by (try reflexivity; rewrite times_length, vals_length; reflexivity).
  rewrite run_assoc, ET. change (and_then (lift (Ok top)) ?q) with (q top). cbv beta. rewrite run_assoc. rewrite run_ylim by reflexivity. rewrite run_title by reflexivity. unfold done, named. cbn [cv_figs cv_axes plus_line ax_fig ax_lines ax_texts ax_title ax_ylabel ax_xlim ax_ylim ax_shown empty_axes app].
  assert (M1 : times (map (fun p => (fst p, snd p - mean5 (vals s))) s) = times s) by (unfold times; rewrite map_map; reflexivity).
  assert (M2 : vals (map (fun p => (fst p, snd p - mean5 (vals s))) s) = map (fun x => x - mean5 (vals s)) (vals s)) by (unfold vals; rewrite !map_map; reflexivity).
  rewrite M1, M2. unfold mean5. rewrite <- !app_assoc. reflexivity.
Qed.

(** The two "uncorrected" panels above each other belong to different records: the velocity drawn is the integral of
    the acceleration drawn exactly if the mean of the first five samples is zero. *)
Theorem C126_uncorrected : forall s v u, (5 <= List.length s)%nat -> step_of s <> 0 -> num_int s = Ok (v, u) ->
  ((exists w z, num_int (map (fun p => (fst p, snd p - mean5 (vals s))) s) = Ok (w, z) /\ vals w = vals v) <-> mean5 (vals s) = 0).
Proof.
  intros s v u H5 Hd E. set (a := map (fun p => (fst p, snd p - mean5 (vals s))) s).
  assert (La : List.length a = List.length s) by (unfold a; apply map_length).
  assert (Ta : times a = times s) by (unfold a, times; rewrite map_map; reflexivity).
  assert (Va : vals a = map (fun x => x - mean5 (vals s)) (vals s)) by (unfold a, vals; rewrite !map_map; reflexivity).
  destruct (num_int_spec s ltac:(lia)) as (v0 & u0 & E0 & _ & _ & Lv & _ & V & _). assert (v0 = v) as -> by congruence.
  destruct (num_int_spec a ltac:(lia)) as (w & z & Ew & _ & _ & Lw & _ & W & _).
  assert (ST : step_of a = step_of s) by (unfold step_of; rewrite Ta; reflexivity).
  split.
  - intros (w' & z' & Ew' & EQ). assert (w' = w) by congruence. subst w'. pose proof (W 0%nat ltac:(lia)) as W0. pose proof (V 0%nat ltac:(lia)) as V0. rewrite EQ, V0, ST, Va in W0.
    destruct s as [|[t0 x0] s]; [cbn in H5; lia|]. set (m := mean5 _) in *. cbn [vals map snd firstn rsum fold_right] in W0. cbn in W0.
    assert (K : step_of ((t0, x0) :: s) * m = 0) by lra. apply Rmult_integral in K. tauto.
  - intros Z. assert (Ea : vals a = vals s) by (rewrite Va, Z; rewrite <- (map_id (vals s)) at 2; apply map_ext; intros; lra).
    exists w, z. split; [exact Ew|]. apply (nth_ext _ _ 0 0); [rewrite !vals_length; lia|]. intros k Hk. rewrite vals_length in Hk. rewrite W, V, ST, Ea by lia. reflexivity.
Qed.
End C126.

(** A record of five samples: corrected, with a mean that is not zero; a filter of two samples; a band. *)
Definition bumps : signal := [(0, 0); (1/10, 1); (2/10, 0); (3/10, 1); (4/10, 0)].
Example C126_instance : let none := fun (_ : nat) (_ : fkind) (_ : list R) => @nil section in
  (exists r, baseline none bumps 1 = Ok r) /\ mean5 (vals bumps) = 2 / 5 /\ step_of bumps <> 0 /\
  (exists out, filter_kernel none [(0, 1); (1/10, 2)] (CNum 1) Lowpass 4 = Ok (FNew out)) /\
  (exists out, filter_kernel none bumps (CSeq [3; 4]) Bandpass 4 = Ok (FNew out)) /\ marked (1/10) 5 (CSeq [3; 4]) [3; 4] /\
  marked (1/10) 5 (CSeq [3; 6]) [3] /\ marked (1/10) 5 (CSeq [1; 4]) [4].
Proof.
  cbv zeta. assert (F : first_step bumps = Ok (1/10 - 0)) by reflexivity.
  assert (NY : nyquist (1/10) = 5) by (unfold nyquist; lra).
  split; [|split; [unfold mean5, bumps; cbn; lra|split; [unfold step_of, bumps; cbn; lra|split; [|split]]]].
  - destruct (C81_outcomes (fun _ _ _ => []) bumps 1 (1/10 - 0) F ltac:(lra)) as (_ & _ & _ & H). destruct H as (r & Hr & _); [cbn; lia|lra|lra|]. exists r. exact Hr.
  - cbn [filter_kernel]. unfold filter_low. change (first_step [(0, 1); (1/10, 2)]) with (@Ok R (1/10 - 0)). cbn [bind]. replace (1/10 - 0) with (1/10) by lra. rewrite NY. rewrite (proj2 (Rleb_false 5 1)) by lra. unfold design. cbn [forallb].
    rewrite (proj2 (Rltb_true 0 (1/5))) by lra. rewrite (proj2 (Rltb_true (1/5) 1)) by lra. cbn [andb]. eexists. reflexivity.
  - cbn [filter_kernel]. rewrite (proj2 (Rleb_false 4 3)) by lra. rewrite F. cbn [bind]. replace (1/10 - 0) with (1/10) by lra. rewrite NY. cbv zeta. rewrite (proj2 (Rleb_false _ 4)) by lra.
    rewrite (proj2 (Rleb_false 3 _)) by (cbn; lra). unfold design. cbn [forallb]. rewrite (proj2 (Rltb_true 0 (3/5))) by lra. rewrite (proj2 (Rltb_true (3/5) 1)) by lra. rewrite (proj2 (Rltb_true 0 (4/5))) by lra. rewrite (proj2 (Rltb_true (4/5) 1)) by lra. cbn [andb]. eexists. reflexivity.
  - unfold marked. rewrite NY. cbn [INR]. split; [right; right; repeat split; lra|]. split; [left; split; [lra|reflexivity]|right; left; repeat split; lra].
Qed.
