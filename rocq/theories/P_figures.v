(** Facts about the canvas and about drawing code that leaves other axes alone. *)
From Coq Require Import Reals List Bool ZArith Lia Lra String.
From Coquelicot Require Import Complex.
From Coq Require Import List.
From Verif Require Import Base M_generic M_profile M_vs_profile M_motion M_interp M_dft M_soil M_params M_curves M_signal M_linear M_amplify M_freqspec M_svm M_simlin M_results M_figures M_figres.
Import ListNotations.
Open Scope string_scope.
Open Scope list_scope.
Open Scope R_scope.

Lemma change_length a g l : List.length (change a g l) = List.length l.
Proof. revert a. induction l; intros [|a']; cbn; auto. Qed.
Lemma change_other a g : forall l i, i <> a -> nth_error (change a g l) i = nth_error l i.
Proof.
  intros l. revert a. induction l as [|x l IH]; intros [|a] i H; cbn; auto.
  - destruct i; [lia|reflexivity].
  - destruct i; [reflexivity|]. cbn. apply IH. lia.
Qed.
Lemma change_same a g : forall l x, nth_error l a = Some x -> nth_error (change a g l) a = Some (g x).
Proof.
  intros l. revert a. induction l as [|y l IH]; intros [|a] x H; cbn in *; try discriminate.
  - congruence.
  - apply IH, H.
Qed.
Lemma change_last g l x : change (List.length l) g (l ++ [x]) = l ++ [g x].
Proof. induction l; cbn; [reflexivity|]. rewrite IHl. reflexivity. Qed.
Lemma change_app a g l r : (a < List.length l)%nat -> change a g (l ++ r) = change a g l ++ r.
Proof. revert a. induction l as [|x l IH]; intros [|a] H; cbn in *; try lia; auto. rewrite IH by lia. reflexivity. Qed.
Lemma change_twice a g k l : change a g (change a k l) = change a (fun s => g (k s)) l.
Proof. revert a. induction l; intros [|a']; cbn; auto. rewrite IHl. reflexivity. Qed.

(** [safe who n m Q]: from any canvas with at least [n] axes, [m] removes no figure and no axes, of the
    first [n] axes changes only [who], and returns a value with [Q]. *)
Definition safe {A} (who : option nat) (n : nat) (m : draws A) (Q : A -> Prop) : Prop := forall c, (n <= List.length (cv_axes c))%nat ->
  (cv_figs c <= cv_figs (fst (m c)))%nat /\ (n <= List.length (cv_axes (fst (m c))))%nat /\
  (forall i, (i < n)%nat -> who <> Some i -> nth_error (cv_axes (fst (m c))) i = nth_error (cv_axes c) i) /\
  (forall a, snd (m c) = Ok a -> Q a).
Definition allowed (who : option nat) (n a : nat) : Prop := (n <= a)%nat \/ who = Some a.

Section Safe.
Variable who : option nat.
Variable n : nat.

Lemma safe_bind {A B} (m : draws A) (k : A -> draws B) Q Q' :
  safe who n m Q -> (forall a, Q a -> safe who n (k a) Q') -> safe who n (and_then m k) Q'.
Proof.
  intros H1 H2 c Hc. specialize (H1 c Hc). unfold and_then. destruct (m c) as [c1 [a|e]]; cbn [fst snd] in *.
  - destruct H1 as (F & L & K & Ha). specialize (H2 a (Ha a eq_refl) c1 L). destruct H2 as (F2 & L2 & K2 & Ha2).
    split; [lia|]. split; [exact L2|]. split; [|exact Ha2]. intros i Hi Hw. rewrite K2, K by auto. reflexivity.
  - destruct H1 as (F & L & K & Ha). repeat split; auto. discriminate.
Qed.
Lemma safe_weaken {A} (m : draws A) (Q Q' : A -> Prop) : safe who n m Q -> (forall a, Q a -> Q' a) -> safe who n m Q'.
Proof. intros H HQ c Hc. destruct (H c Hc) as (F & L & K & Ha). repeat split; auto. Qed.
Lemma safe_done {A} (x : A) (Q : A -> Prop) : Q x -> safe who n (done x) Q.
Proof. intros H c Hc. cbn. repeat split; auto. intros a E. injection E as <-. exact H. Qed.
Lemma safe_raise {A} e (Q : A -> Prop) : safe who n (raise e) Q.
Proof. intros c Hc. cbn. repeat split; auto. discriminate. Qed.
Lemma safe_lift {A} (r : res A) : safe who n (lift r) (fun _ => True).
Proof. intros c Hc. cbn. repeat split; auto. Qed.
Lemma safe_on a g : allowed who n a -> safe who n (on a g) (fun _ => True).
Proof.
  intros Ha c Hc. cbn. rewrite change_length. repeat split; auto.
  intros i Hi Hw. apply change_other. intros ->. destruct Ha as [Ha|Ha]; [lia|contradiction].
Qed.
Lemma safe_draw a x y l : allowed who n a -> safe who n (draw a x y l) (fun _ => True).
Proof. intros Ha. unfold draw. destruct Nat.eqb; [apply safe_on, Ha|apply safe_raise]. Qed.
Lemma safe_new : safe who n new_figure (fun _ => True).
Proof. intros c Hc. cbn. repeat split; auto. Qed.
Lemma safe_add f : safe who n (add_subplot f) (allowed who n).
Proof.
  intros c Hc. cbn. rewrite app_length. cbn. repeat split; try lia.
  - intros i Hi Hw. rewrite nth_error_app1 by lia. reflexivity.
  - intros a E. injection E as <-. left. lia.
Qed.
Lemma safe_given f a : allowed who n a -> safe who n (fig_ax (Some f) (Some a)) (fun p => allowed who n (snd p)).
Proof. intros H c Hc. cbn. repeat split; auto. intros q E. injection E as <-. exact H. Qed.
Lemma safe_fresh fig : safe who n (fig_ax fig None) (fun p => allowed who n (snd p)).
Proof.
  unfold fig_ax, process_fig_ax. eapply safe_bind with (Q := fun p => match snd p with Some a => allowed who n a | None => True end).
  - eapply safe_bind with (Q := fun _ => True); [destruct fig; [apply safe_done; auto|apply safe_new]|]. intros f _.
    eapply safe_bind; [apply safe_add|]. intros a Ha. apply safe_done. exact Ha.
  - intros [f [a|]] H; [apply safe_done, H|apply safe_raise].
Qed.
Lemma safe_title a t : allowed who n a -> safe who n (title_if a t) (fun _ => True).
Proof. intros H. unfold title_if. destruct t as [s|]; [destruct String.eqb|]; try (apply safe_done; exact I). apply safe_on, H. Qed.
Lemma safe_ylabel a t : allowed who n a -> safe who n (ylabel_if a t) (fun _ => True).
Proof. intros H. unfold ylabel_if. destruct t as [s|]; [destruct String.eqb|]; try (apply safe_done; exact I). apply safe_on, H. Qed.
End Safe.
Lemma safe_fig_ax who n fig : safe who n (fig_ax fig who) (fun p => allowed who n (snd p)).
Proof.
  destruct who as [a|]; [|apply safe_fresh]. unfold fig_ax, process_fig_ax.
  eapply safe_bind with (Q := fun p => match snd p with Some b => allowed (Some a) n b | None => True end).
  - eapply safe_bind with (Q := fun _ => True); [destruct fig; [apply safe_done; auto|apply safe_new]|]. intros f _.
    apply safe_done. cbn. right. reflexivity.
  - intros [f [b|]] H; [apply safe_done, H|apply safe_raise].
Qed.

Ltac safely :=
  repeat (cbv zeta; lazymatch goal with
  | |- allowed _ _ _ => assumption
  | |- safe _ _ (and_then _ _) _ => eapply safe_bind; [|intros ? ?]
  | |- safe _ _ (done _) _ => apply safe_done; auto
  | |- safe _ _ (raise _) _ => apply safe_raise
  | |- safe _ _ (lift _) _ => apply safe_lift
  | |- safe _ _ (draw _ _ _ _) _ => apply safe_draw
  | |- safe _ _ (put_text _ _ _ _) _ => apply safe_on
  | |- safe _ _ (set_title _ _) _ => apply safe_on
  | |- safe _ _ (set_ylabel _ _) _ => apply safe_on
  | |- safe _ _ (set_xlim _ _ _) _ => apply safe_on
  | |- safe _ _ (set_ylim _ _ _) _ => apply safe_on
  | |- safe _ _ (remove _) _ => apply safe_on
  | |- safe _ _ (title_if _ _) _ => apply safe_title
  | |- safe _ _ (ylabel_if _ _) _ => apply safe_ylabel
  | |- safe _ _ new_figure _ => apply safe_new
  | |- safe _ _ (add_subplot _) _ => apply safe_add
  | |- safe ?w _ (fig_ax _ ?w) _ => apply safe_fig_ax
  | |- safe _ _ (fig_ax _ None) _ => apply safe_fresh
  | |- safe _ _ (if ?b then _ else _) _ => destruct b eqn:?
  | |- safe _ _ (match ?b with _ => _ end) _ => destruct b eqn:?
  end).

Lemma plot_motion_safe n src u fig ax title : safe ax n (plot_motion src u fig ax title) (fun _ => True).
Proof. unfold plot_motion. safely. Qed.
Lemma gm_plot_safe n h m file u fig ax : safe ax n (gm_plot h m file u fig ax) (fun _ => True).
Proof.
  unfold gm_plot. cbv zeta. eapply safe_bind with (Q := fun _ => True).
  - repeat match goal with |- context [if ?b then _ else _] => destruct b end; safely.
  - intros. apply plot_motion_safe.
Qed.
Lemma plot_Vs_safe n p fig ax t l d : safe ax n (plot_Vs_profile p fig ax t l d) (fun fa => allowed ax n (snd fa)).
Proof. unfold plot_Vs_profile. safely. Qed.
Lemma plot_Vs_safe_in n who p f a t l d : allowed who n a -> safe who n (plot_Vs_profile p (Some f) (Some a) t l d) (fun fa => allowed who n (snd fa)).
Proof. intros H. unfold plot_Vs_profile. eapply safe_bind; [apply safe_given, H|]. intros. safely. Qed.
Lemma vs_plot_safe n h o file kw fig ax l d : safe ax n (vs_plot h o file kw fig ax l d) (fun fa => allowed ax n (snd fa)).
Proof.
  unfold vs_plot. eapply safe_bind with (Q := fun _ => True); [destruct (truthy file), kw; safely|]. intros. apply plot_Vs_safe.
Qed.
Lemma plot_queried_safe n h o file vs z : safe None n (plot_queried h o file vs z) (fun _ => True).
Proof. unfold plot_queried. eapply safe_bind; [apply vs_plot_safe|]. intros. safely. Qed.
Lemma svm_plot_safe n h s t kw fig ax : safe ax n (svm_plot h s t kw fig ax) (fun fa => allowed ax n (snd fa)).
Proof. unfold svm_plot. destruct kw; [apply safe_raise|apply plot_Vs_safe]. Qed.
Lemma plot_additional_safe n h s t p l : safe None n (plot_additional h s t p l) (fun _ => True).
Proof.
  unfold plot_additional. eapply safe_bind; [apply plot_Vs_safe|]. intros fa H.
  eapply safe_bind; [apply plot_Vs_safe_in, H|]. intros. safely.
Qed.
Lemma curve_plot_safe n h c b fig ax t y l : safe ax n (curve_plot h c b fig ax t y l) (fun fa => allowed ax n (snd fa)).
Proof.
  unfold curve_plot. eapply safe_bind; [apply safe_fig_ax|]. intros fa H. eapply safe_bind with (Q := fun _ => True); [destruct b; safely|]. intros. safely.
Qed.
Lemma curves_loop_safe n who h cs b f a t y : allowed who n a -> safe who n (curves_loop h cs b f a t y) (fun _ => True).
Proof.
  intros H. induction cs as [|c cs IH]; cbn [curves_loop]; [safely|]. eapply safe_bind with (Q := fun _ => True); [|intros _ _; exact IH].
  unfold curve_plot. eapply safe_bind; [apply safe_given, H|]. intros fa H'. eapply safe_bind with (Q := fun _ => True); [destruct b; safely|]. intros. safely.
Qed.
Lemma curves_plot_safe n h cs b fig ax t y l :
  safe (match fig with Some _ => ax | None => None end) n (curves_plot h cs b fig ax t y l) (fun fa => allowed (match fig with Some _ => ax | None => None end) n (snd fa)).
Proof.
  unfold curves_plot. eapply safe_bind with (Q := fun fa => allowed (match fig with Some _ => ax | None => None end) n (snd fa)).
  - destruct fig, ax; safely. right. reflexivity.
  - intros fa H. eapply safe_bind; [apply curves_loop_safe, H|]. intros. safely.
Qed.
Lemma fs_plot_safe n s file b fig ax l : safe ax n (fs_plot s file b fig ax l) (fun fa => allowed ax n (snd fa)).
Proof. unfold fs_plot. safely. Qed.

Lemma site_amp_safe n si so fr am sm ph fig l1 l2 l3 l4 : safe None n (plot_site_amp si so fr am sm ph fig l1 l2 l3 l4)
  (fun p => forall a, In a (snd p) -> allowed None n a).
Proof.
  unfold plot_site_amp, process_fig_ax, plot_histories, draw_opt. cbv zeta.
  eapply safe_bind; [apply safe_lift|]. intros ok _. destruct ok; cbn [negb]; [|apply safe_raise].
  eapply safe_bind with (Q := fun _ => True).
  { eapply safe_bind with (Q := fun _ => True); [destruct fig; safely|]. intros. safely. }
  intros fa _.
  eapply safe_bind; [apply safe_add|]. intros a0 H0.
  eapply safe_bind with (Q := fun _ => True).
  { eapply safe_bind; [apply safe_lift|]. intros mo _. eapply safe_bind; [apply safe_lift|]. intros mi _.
    eapply safe_bind with (Q := fun _ => True); [destruct (Rleb mi mo); safely|]. intros. safely. }
  intros _ _. eapply safe_bind with (Q := fun l => forall a, In a l -> allowed None n a).
  { destruct fr; [|apply safe_done; intros a []]. 
    eapply safe_bind; [apply safe_add|]. intros a Ha. eapply safe_bind with (Q := fun _ => True); [destruct am; safely|]. intros _ _.
    eapply safe_bind with (Q := fun _ => True); [destruct sm; safely|]. intros. safely. cbn [In]. intros b Hb. destruct Hb as [<-|[]]. assumption. }
  intros a1 H1. eapply safe_bind with (Q := fun l => forall a, In a l -> allowed None n a).
  { destruct fr; [|apply safe_done; intros a []]. destruct ph; [|apply safe_done; intros a []]. safely. cbn [In]. intros b Hb. destruct Hb as [<-|[]]. assumption. }
  intros a2 H2. safely. cbn [snd]; intros b Hb. apply in_app_or in Hb as [[<-|[]]|Hb]; [assumption|].
  apply in_app_or in Hb as [Hb|Hb]; [auto|]. apply in_app_or in Hb as [Hb|[<-|[]]]; auto.
Qed.
Lemma results_figures_safe n h r : safe None n (results_figures h r) (fun _ => True).
Proof.
  unfold results_figures, plot_maxima, panel. cbv zeta. eapply safe_bind; [apply site_amp_safe|]. intros p Hp.
  eapply safe_bind with (Q := fun _ => True).
  - cbn beta in Hp. destruct (snd p) as [|a0 l]; [apply safe_raise|]. apply safe_on. apply Hp. left. reflexivity.
  - intros _ _. eapply safe_bind with (Q := fun _ => True).
    + destruct (rr_max_avd r); [|safely]. destruct (rr_max_gt r); [|safely].
      eapply safe_bind with (Q := fun _ => True); [|intros; safely].
      eapply safe_bind; [apply safe_lift|]. intros. eapply safe_bind; [apply safe_new|]. intros.
      repeat (eapply safe_bind with (Q := fun _ => True); [safely|intros ? _]). safely.
    + intros. safely.
Qed.
