(** Figures of results: C113 comparison of two motions and maxima, C114 image files, C115 damping fits. *)
From Coq Require Import Reals List Bool ZArith Lia Lra String Psatz.
From Coquelicot Require Import Complex.
From Coq Require Import List.
From Verif Require Import P_unwrap.
From Verif Require Import Base M_generic M_profile M_vs_profile M_motion M_interp M_dft M_soil M_params M_curves M_signal M_linear M_amplify M_freqspec M_svm M_simlin M_results M_figures M_figres.
From Verif Require Import P_profile P_motion P_amplify P_curves Prop_freqspec Prop_fourier Prop_curves P_figures Prop_figures.
From Verif Require Prop_mkzfit.
Import ListNotations.
Open Scope string_scope.
Open Scope list_scope.
Open Scope R_scope.

(** ** C113 two motions *)

(** The same times up to 1e-4 s and 1e-5 of the time. *)
Definition same_times (t1 t2 : list R) : Prop :=
  List.length t1 = List.length t2 /\ forall k, (k < List.length t1)%nat -> Rabs (nth k t1 0 - nth k t2 0) <= 1 / 10000 + 1 / 100000 * Rabs (nth k t2 0).

Lemma times_agree_spec t1 t2 : (2 <= List.length t1)%nat -> (2 <= List.length t2)%nat ->
  (List.length t1 <> List.length t2 -> times_agree t1 t2 = Err ValueError) /\
  (List.length t1 = List.length t2 -> exists b, times_agree t1 t2 = Ok b /\ (b = true <-> same_times t1 t2)).
Proof.
  intros H1 H2.
  assert (E : times_agree t1 t2 = if Nat.eqb (List.length t1) (List.length t2) then Ok (forallb (fun p => close4 (fst p) (snd p)) (combine t1 t2)) else Err ValueError).
  { destruct t1 as [|x [|x' t1]]; cbn in H1; try lia. destruct t2 as [|y [|y' t2]]; cbn in H2; try lia. reflexivity. }
  rewrite E. split; intros L.
  - rewrite (proj2 (Nat.eqb_neq _ _) L). reflexivity.
  - rewrite (proj2 (Nat.eqb_eq _ _) L). eexists. split; [reflexivity|]. rewrite forallb_forall. unfold same_times. split.
    + intros K. split; [exact L|]. intros k Hk. specialize (K (nth k t1 0, nth k t2 0)). unfold close4 in K. cbn [fst snd] in K.
      rewrite <- Rleb_true. apply K. rewrite <- combine_nth by exact L. apply nth_In. rewrite combine_length. lia.
    + intros [_ K] [a b] I. apply (In_nth _ _ (0, 0)) in I as (k & Hk & Ek). rewrite combine_length in Hk. rewrite combine_nth in Ek by exact L. injection Ek as <- <-.
      unfold close4. cbn [fst snd]. apply Rleb_true. apply K. lia.
Qed.

(** The largest absolute value. *)
Definition peak (l : list R) (m : R) : Prop := greatest (map Rabs l) m.

Lemma max_abs_peak l : l <> [] -> exists m, max_abs l = Ok m /\ peak l m.
Proof.
  intros H. destruct (max_abs_ok l H) as (m & E & _ & A & (x & I & ->)). exists (Rabs x). split; [exact E|]. split; [apply in_map; exact I|].
  intros y Hy. apply in_map_iff in Hy as (z & <- & Hz). apply A. exact Hz.
Qed.

Lemma peak_unique l m m' : peak l m -> peak l m' -> m = m'.
Proof. intros [A B] [C D]. apply Rle_antisym; auto. Qed.

(** Drawing on axes just made. *)
Definition plus_line (l : line) (s : axes) : axes := mkaxes (ax_fig s) (ax_lines s ++ [l]) (ax_texts s) (ax_title s) (ax_ylabel s) (ax_xlim s) (ax_ylim s) (ax_shown s).
Lemma run_assoc {A B D} (m : draws A) (k : A -> draws B) (j : B -> draws D) c : and_then (and_then m k) j c = and_then m (fun x => and_then (k x) j) c.
Proof. unfold and_then. destruct (m c) as [c1 [a|e]]; reflexivity. Qed.
Lemma run_done {A B} (x : A) (k : A -> draws B) c : and_then (done x) k c = k x c. Proof. reflexivity. Qed.
Lemma run_sub {B} f (k : nat -> draws B) n l : and_then (add_subplot f) k (mkcanvas n l) = k (List.length l) (mkcanvas n (l ++ [empty_axes f])). Proof. reflexivity. Qed.
Lemma run_on {B} g (k : unit -> draws B) n l s a : a = List.length l -> and_then (on a g) k (mkcanvas n (l ++ [s])) = k tt (mkcanvas n (l ++ [g s])).
Proof. intros ->. unfold and_then, on. cbn [cv_figs cv_axes]. rewrite change_last. reflexivity. Qed.
Lemma run_draw {B} x y lb (k : unit -> draws B) n l s a : a = List.length l -> List.length x = List.length y ->
  and_then (draw a x y lb) k (mkcanvas n (l ++ [s])) = k tt (mkcanvas n (l ++ [plus_line (mkline x y lb) s])).
Proof. intros -> E. unfold draw. rewrite E, Nat.eqb_refl. rewrite run_on by reflexivity. reflexivity. Qed.
Lemma run_ylabel {B} t (k : unit -> draws B) n l s a : a = List.length l ->
  and_then (set_ylabel a t) k (mkcanvas n (l ++ [s])) = k tt (mkcanvas n (l ++ [mkaxes (ax_fig s) (ax_lines s) (ax_texts s) (ax_title s) (Some t) (ax_xlim s) (ax_ylim s) (ax_shown s)])).
Proof. intros E. unfold set_ylabel. rewrite run_on by exact E. reflexivity. Qed.
Lemma run_xlim {B} u v (k : unit -> draws B) n l s a : a = List.length l ->
  and_then (set_xlim a u v) k (mkcanvas n (l ++ [s])) = k tt (mkcanvas n (l ++ [mkaxes (ax_fig s) (ax_lines s) (ax_texts s) (ax_title s) (ax_ylabel s) (Some (u, v)) (ax_ylim s) (ax_shown s)])).
Proof. intros E. unfold set_xlim. rewrite run_on by exact E. reflexivity. Qed.
Lemma run_ylim {B} u v (k : unit -> draws B) n l s a : a = List.length l ->
  and_then (set_ylim a u v) k (mkcanvas n (l ++ [s])) = k tt (mkcanvas n (l ++ [mkaxes (ax_fig s) (ax_lines s) (ax_texts s) (ax_title s) (ax_ylabel s) (ax_xlim s) (Some (u, v)) (ax_shown s)])).
Proof. intros E. unfold set_ylim. rewrite run_on by exact E. reflexivity. Qed.
Lemma run_unit (m : draws unit) c : m c = and_then m (fun _ => done tt) c.
Proof. unfold and_then. destruct (m c) as [c1 [[]|e]]; reflexivity. Qed.

(** The axes of the histories: the input or the output first, depending on the peaks. *)
Lemma histories_run {B} n l f t xi xo lin lout pi po lo hi a (k : unit -> draws B) : a = List.length l -> (List.length t = List.length xi) -> (List.length t = List.length xo) ->
  peak xi pi -> peak xo po -> least t lo -> greatest t hi ->
  and_then (plot_histories a t xi xo lin lout) k (mkcanvas n (l ++ [empty_axes f])) =
  k tt (mkcanvas n (l ++ [mkaxes f
     (if Rle_dec pi po then [mkline t xo (Some lout); mkline t xi (Some lin)] else [mkline t xi (Some lin); mkline t xo (Some lout)])
     [] None (Some "Acceleration") (Some (lo, hi)) None true])).
Proof.
  intros Ea L1 L2 P1 P2 H1 H2. unfold plot_histories.
  assert (N1 : xi <> []) by (destruct P1 as [P1 _]; destruct xi; [destruct P1|discriminate]).
  assert (N2 : xo <> []) by (destruct P2 as [P2 _]; destruct xo; [destruct P2|discriminate]).
  destruct (max_abs_peak xo N2) as (m2 & E2 & Q2). destruct (max_abs_peak xi N1) as (m1 & E1 & Q1).
  rewrite run_assoc, E2, lift_ok, run_assoc, E1, lift_ok. rewrite (peak_unique _ _ _ Q1 P1), (peak_unique _ _ _ Q2 P2).
  apply rmin1_least in H1. apply rmax1_greatest in H2. rewrite run_assoc.
  destruct (Rleb_spec pi po) as [Hl|Hl]; (destruct (Rle_dec pi po) as [Hd|Hd]; [|try lra]; try lra).
  - rewrite run_assoc, (run_draw _ _ _ _ _ _ _ _ Ea L2), (run_draw _ _ _ _ _ _ _ _ Ea L1), run_assoc, H1, lift_ok, run_assoc, H2, lift_ok, run_assoc, (run_xlim _ _ _ _ _ _ _ Ea), (run_ylabel _ _ _ _ _ _ Ea). reflexivity.
  - rewrite run_assoc, (run_draw _ _ _ _ _ _ _ _ Ea L1), (run_draw _ _ _ _ _ _ _ _ Ea L2), run_assoc, H1, lift_ok, run_assoc, H2, lift_ok, run_assoc, (run_xlim _ _ _ _ _ _ _ Ea), (run_ylabel _ _ _ _ _ _ Ea). reflexivity.
Qed.

Definition opt_list {A} (o : option A) (k : A -> list line) : list line := match o with Some l => k l | None => [] end.

(** What is drawn: the two histories, with a frequency axis the amplification, with phases the phases, and always the two Fourier spectra; the
    axes are returned in that order. *)
Theorem C113_drawn : forall s_in s_out freq amp sm ph fig lin lout lamp lphase c,
  (2 <= List.length s_in)%nat -> same_times (times s_in) (times s_out) ->
  (forall fr, freq = Some fr -> (exists am, amp = Some am /\ List.length am = List.length fr) /\
     (forall l, sm = Some l -> List.length l = List.length fr) /\ (forall l, ph = Some l -> List.length l = List.length fr)) ->
  exists f A0 A3 mid Fi Fo pi po lo hi,
    f = match fig with Some g => g | None => cv_figs c end /\
    plot_site_amp s_in s_out freq amp sm ph fig lin lout lamp lphase c =
      (mkcanvas (match fig with Some _ => cv_figs c | None => S (cv_figs c) end) (cv_axes c ++ [A0] ++ mid ++ [A3]),
       Ok (f, seq (List.length (cv_axes c)) (2 + List.length mid))) /\
    peak (vals s_in) pi /\ peak (vals s_out) po /\ least (times s_in) lo /\ greatest (times s_in) hi /\
    A0 = mkaxes f (if Rle_dec pi po then [mkline (times s_in) (vals s_out) (Some lout); mkline (times s_in) (vals s_in) (Some lin)]
                   else [mkline (times s_in) (vals s_in) (Some lin); mkline (times s_in) (vals s_out) (Some lout)])
           [] None (Some "Acceleration") (Some (lo, hi)) None true /\
    mid = match freq, amp with
          | Some fr, Some am =>
              mkaxes f ([mkline fr am (Some "Unsmoothed")] ++ opt_list sm (fun l => [mkline fr l (Some "Smoothed")]) ++ [mkline fr (map (fun _ => 1) fr) None])
                [] None (Some lamp) None None true
              :: match ph with Some p => [mkaxes f [mkline fr p None] [] None (Some lphase) None None true] | None => [] end
          | _, _ => []
          end /\
    fourier_amplitude s_in false = Ok Fi /\ fourier_amplitude s_out false = Ok Fo /\
    A3 = mkaxes f [mkline (times Fo) (vals Fo) (Some lout); mkline (times Fi) (vals Fi) (Some lin)] [] None (Some "Fourier amplitudes") None None true.
Proof.
  intros s_in s_out freq amp sm ph fig lin lout lamp lphase c Hn Ht Hf.
  assert (Li : List.length (times s_in) = List.length s_in) by apply map_length. assert (Lo : List.length (times s_out) = List.length s_out) by apply map_length.
  assert (Vi : List.length (vals s_in) = List.length s_in) by apply map_length. assert (Vo : List.length (vals s_out) = List.length s_out) by apply map_length.
  pose proof (proj1 Ht) as Lt.
  destruct (proj2 (times_agree_spec (times s_in) (times s_out) ltac:(lia) ltac:(lia)) Lt) as (b & Eb & Hb). apply Hb in Ht. subst b.
  assert (Na : vals s_in <> []) by (intros E; rewrite E in Vi; cbn in Vi; lia). assert (Nb : vals s_out <> []) by (intros E; rewrite E in Vo; cbn in Vo; lia).
  assert (Nt : times s_in <> []) by (intros E; rewrite E in Li; cbn in Li; lia).
  destruct (max_abs_peak _ Na) as (pi & _ & Pi). destruct (max_abs_peak _ Nb) as (po & _ & Po).
  destruct (rmin1_spec (times s_in) 0 Nt) as (lo & Elo & _). destruct (rmax1_spec (times s_in) 0 Nt) as (hi & Ehi & _).
  apply rmin1_least in Elo. apply rmax1_greatest in Ehi.
  assert (FA : forall s, (2 <= List.length s)%nat -> exists F, fourier_amplitude s false = Ok F).
  { intros s Hs. destruct s as [|[t0 v0] [|[t1 v1] s]]; cbn in Hs; try lia. destruct (proj1 (C32_shape ((t0, v0) :: (t1, v1) :: s) false) _ eq_refl) as (X & EX & _).
    unfold fourier_amplitude. rewrite EX. eexists. reflexivity. }
  destruct (FA s_in Hn) as (Fi & EFi). destruct (FA s_out ltac:(lia)) as (Fo & EFo).
  set (f := match fig with Some g => g | None => cv_figs c end).
  exists f. do 3 eexists. exists Fi, Fo, pi, po, lo, hi. split; [reflexivity|].
  match goal with |- ?E /\ _ => enough E as HE by (split; [exact HE|]; do 4 (split; [assumption|]); do 2 (split; [reflexivity|]); split; [exact EFi|]; split; [exact EFo|reflexivity]) end.
  assert (EF : process_fig_ax fig None true c = (mkcanvas (match fig with Some _ => cv_figs c | None => S (cv_figs c) end) (cv_axes c), Ok (f, None))) by (destruct fig; [destruct c|]; reflexivity).
  unfold plot_site_amp. rewrite Eb, lift_ok. cbn [negb]. unfold and_then at 1. rewrite EF. cbn [fst]. set (n := match fig with Some _ => cv_figs c | None => S (cv_figs c) end).
  rewrite run_sub. rewrite (histories_run n (cv_axes c) f (times s_in) (vals s_in) (vals s_out) lin lout pi po lo hi _ _ eq_refl ltac:(lia) ltac:(lia) Pi Po Elo Ehi).
  assert (TV : forall F : signal, List.length (times F) = List.length (vals F)) by (intros F; unfold times, vals; rewrite !map_length; reflexivity).
  set (A0 := mkaxes f (if Rle_dec pi po then _ else _) _ _ _ _ _ _).
  assert (LE : forall (a b : list axes), (2 + List.length b = List.length a)%nat -> True) by auto. clear LE.
  destruct freq as [fr|].
  - destruct (Hf fr eq_refl) as ((am & -> & La) & Ls & Lp). rewrite run_assoc, run_sub, run_assoc. unfold draw_opt. rewrite run_draw by (auto; lia). rewrite run_assoc.
    assert (M1 : List.length fr = List.length (map (fun _ : R => 1) fr)) by (rewrite map_length; reflexivity).
    set (mk1 := fun s : axes => mkaxes (ax_fig s) (ax_lines s ++ [mkline fr (map (fun _ => 1) fr) None]) (ax_texts s) (ax_title s) (Some lamp) (ax_xlim s) (ax_ylim s) (ax_shown s)).
    assert (SM : forall B (k : unit -> draws B) l s a, a = List.length l ->
      and_then (match sm with Some l => draw a fr l (Some "Smoothed") | None => done tt end) k (mkcanvas n (l ++ [s])) =
      k tt (mkcanvas n (l ++ [mkaxes (ax_fig s) (ax_lines s ++ opt_list sm (fun l => [mkline fr l (Some "Smoothed")])) (ax_texts s) (ax_title s) (ax_ylabel s) (ax_xlim s) (ax_ylim s) (ax_shown s)]))).
    { intros B k l s a Ea. destruct sm as [sl|]; cbn [opt_list]; [rewrite run_draw by (auto; symmetry; apply Ls; reflexivity); reflexivity|]. rewrite run_done, app_nil_r. destruct s; reflexivity. }
    rewrite SM by reflexivity. rewrite run_assoc, run_draw by auto. rewrite run_assoc, run_ylabel by reflexivity. rewrite run_done.
    destruct ph as [pl|].
    + rewrite run_assoc, run_sub, run_assoc, run_draw by (auto; symmetry; apply Lp; reflexivity). rewrite run_assoc, run_ylabel by reflexivity. rewrite run_done.
      rewrite EFi, lift_ok, EFo, lift_ok, run_sub, run_draw by auto. rewrite run_draw by auto. rewrite run_ylabel by reflexivity.
      unfold done. rewrite !app_length. cbn [List.length empty_axes plus_line ax_fig ax_lines ax_texts ax_title ax_ylabel ax_xlim ax_ylim ax_shown app]. rewrite <- !app_assoc. cbn [app seq List.length Nat.add].
      replace (List.length (cv_axes c) + 1)%nat with (S (List.length (cv_axes c))) by lia. rewrite !Nat.add_1_r. reflexivity.
    + rewrite run_done. rewrite EFi, lift_ok, EFo, lift_ok, run_sub, run_draw by auto. rewrite run_draw by auto. rewrite run_ylabel by reflexivity.
      unfold done. rewrite !app_length. cbn [List.length empty_axes plus_line ax_fig ax_lines ax_texts ax_title ax_ylabel ax_xlim ax_ylim ax_shown app]. rewrite <- !app_assoc. cbn [app seq List.length Nat.add].
      rewrite !Nat.add_1_r. reflexivity.
  - rewrite run_done. replace (match ph with Some _ | _ => done [] end) with (done (A := list nat) []) by (destruct ph; reflexivity). rewrite run_done.
    rewrite EFi, lift_ok, EFo, lift_ok, run_sub, run_draw by auto. rewrite run_draw by auto. rewrite run_ylabel by reflexivity.
    unfold done. rewrite !app_length. cbn [List.length empty_axes plus_line ax_fig ax_lines ax_texts ax_title ax_ylabel ax_xlim ax_ylim ax_shown app]. rewrite <- !app_assoc. cbn [app seq List.length Nat.add].
    rewrite !Nat.add_1_r. reflexivity.
Qed.

(** Motions whose times do not agree are refused before anything is drawn. *)
Theorem C113_failures : forall s_in s_out freq amp sm ph fig lin lout lamp lphase c,
  (2 <= List.length s_in)%nat -> (2 <= List.length s_out)%nat ->
  (List.length s_in <> List.length s_out -> plot_site_amp s_in s_out freq amp sm ph fig lin lout lamp lphase c = (c, Err ValueError)) /\
  (List.length s_in = List.length s_out -> ~ same_times (times s_in) (times s_out) ->
     plot_site_amp s_in s_out freq amp sm ph fig lin lout lamp lphase c = (c, Err AssertionError)).
Proof.
  intros s_in s_out freq amp sm ph fig lin lout lamp lphase c H1 H2.
  assert (L1 : List.length (times s_in) = List.length s_in) by apply map_length. assert (L2 : List.length (times s_out) = List.length s_out) by apply map_length.
  destruct (times_agree_spec (times s_in) (times s_out) ltac:(lia) ltac:(lia)) as [A B]. unfold plot_site_amp. split.
  - intros L. rewrite (A ltac:(lia)), lift_err. reflexivity.
  - intros L N. destruct (B ltac:(lia)) as (b & -> & Hb). rewrite lift_ok. destruct b; [exfalso; apply N, Hb; reflexivity|reflexivity].
Qed.

(** The figure of the maxima: acceleration, velocity and displacement (in cm), strain (in per cent) and stress (in kPa) against
    depth, all panels from the greatest depth of the first table at the bottom to 0 at the top. *)
Definition maxima_panel (f : nat) (deepest : R) (x z : list R) : axes := mkaxes f [mkline x z None] [] None None None (Some (deepest, 0)) true.
Theorem C113_maxima : forall avd gt c deepest, greatest (col 0 avd) deepest ->
  (forall j, (j < 4)%nat -> List.length (col j avd) = List.length (col 0 avd)) -> (forall j, (j < 3)%nat -> List.length (col j gt) = List.length (col 0 gt)) ->
  plot_maxima avd gt c =
    (mkcanvas (S (cv_figs c)) (cv_axes c ++
       [maxima_panel (cv_figs c) deepest (col 1 avd) (col 0 avd);
        maxima_panel (cv_figs c) deepest (map (fun v => 100 * v) (col 2 avd)) (col 0 avd);
        maxima_panel (cv_figs c) deepest (map (fun v => 100 * v) (col 3 avd)) (col 0 avd);
        maxima_panel (cv_figs c) deepest (map (fun v => 100 * v) (col 1 gt)) (col 0 gt);
        maxima_panel (cv_figs c) deepest (map (fun v => v / 1000) (col 2 gt)) (col 0 gt)]),
     Ok (cv_figs c, seq (List.length (cv_axes c)) 5)).
Proof.
  intros avd gt c deepest Hd La Lg. apply rmax1_greatest in Hd. unfold plot_maxima. rewrite Hd, lift_ok.
  assert (P : forall B (k : nat -> draws B) f x z n l, List.length x = List.length z ->
    and_then (panel f x z deepest) k (mkcanvas n l) = k (List.length l) (mkcanvas n (l ++ [maxima_panel f deepest x z]))).
  { intros B k f x z n l L. unfold panel. rewrite run_assoc, run_sub, run_assoc, run_draw by auto. rewrite run_assoc, run_ylim by reflexivity. reflexivity. }
  assert (T : forall l, times_ 100 l = map (fun v => 100 * v) l) by (intros l; apply map_ext; intros; lra).
  unfold and_then at 1, new_figure. rewrite !T. rewrite !P by (rewrite ?map_length; auto with arith).
  unfold done. rewrite !app_length. cbn [List.length]. rewrite <- !app_assoc. cbn [app seq]. rewrite !Nat.add_1_r. reflexivity.
Qed.

(** Both figures of a set of results. *)
Theorem C113_results : forall h r c, let s_in := sig_at h (m_accel (rr_input r)) in let s_out := sig_at h (m_accel (rr_surface r)) in
  (2 <= List.length s_in)%nat -> same_times (times s_in) (times s_out) ->
  (forall t, rr_tf r = Some t -> List.length (fs_spec t) = List.length (fs_freq t) /\
     forall s, rr_tf_smooth r = Some s -> List.length (fs_spec s) = List.length (fs_freq t)) ->
  (forall avd gt, rr_max_avd r = Some avd -> rr_max_gt r = Some gt -> col 0 avd <> [] /\
     (forall j, (j < 4)%nat -> List.length (col j avd) = List.length (col 0 avd)) /\ (forall j, (j < 3)%nat -> List.length (col j gt) = List.length (col 0 gt))) ->
  exists c2 fig2, let n := List.length (cv_axes c) in let k := (2 + match rr_tf r with Some _ => 2 | None => 0 end)%nat in
    results_figures h r c = (c2, Ok ((cv_figs c, seq n k), fig2)) /\
    fig2 = match rr_max_avd r, rr_max_gt r with Some _, Some _ => Some (S (cv_figs c), seq (n + k) 5) | _, _ => None end /\
    firstn n (cv_axes c2) = cv_axes c /\ (List.length (cv_axes c2) = n + k + match fig2 with Some _ => 5 | None => 0 end)%nat /\
    (forall j a, (n <= j < n + k)%nat -> nth_error (cv_axes c2) j = Some a -> ax_fig a = cv_figs c) /\
    (exists a, nth_error (cv_axes c2) n = Some a /\ ax_ylabel a = Some "Accel. [m/s/s]").
Proof.
  intros h r c s_in s_out Hn Ht Hf Hm.
  destruct (C113_drawn s_in s_out (option_map fs_freq (rr_tf r)) (option_map amplitude (rr_tf r)) (option_map amplitude (rr_tf_smooth r)) (option_map phase (rr_tf r))
    None "Input" "Output" "Amplification" "Phase shift [rad]" c Hn Ht) as (f & A0 & A3 & mid & Fi & Fo & pi & po & lo & hi & Ef & E & _ & _ & _ & _ & EA0 & Em & _ & _ & EA3).
  { destruct (rr_tf r) as [t|]; [|discriminate]. intros fr Efr. injection Efr as <-. destruct (Hf t eq_refl) as [L1 L2]. split; [eexists; split; [reflexivity|]|split].
    - unfold amplitude. rewrite map_length. exact L1.
    - intros l El. destruct (rr_tf_smooth r) as [s|]; [|discriminate]. injection El as <-. unfold amplitude. rewrite map_length. apply L2. reflexivity.
    - intros l El. injection El as <-. unfold phase. rewrite map_length. exact L1. }
  subst f. set (f := cv_figs c) in *.
  assert (Lm : List.length mid = match rr_tf r with Some _ => 2%nat | None => 0%nat end) by (subst mid; destruct (rr_tf r); reflexivity).
  assert (Fm : Forall (fun a => ax_fig a = f) mid) by (subst mid; destruct (rr_tf r) as [t|]; cbn; repeat constructor).
  assert (F0 : ax_fig A0 = f) by (subst A0; reflexivity). assert (F3 : ax_fig A3 = f) by (subst A3; reflexivity). clear EA0 EA3 Em.
  set (A0' := mkaxes (ax_fig A0) (ax_lines A0) (ax_texts A0) (ax_title A0) (Some "Accel. [m/s/s]") (ax_xlim A0) (ax_ylim A0) (ax_shown A0)).
  assert (S1 : forall B (k : unit -> draws B), and_then (set_ylabel (List.length (cv_axes c)) "Accel. [m/s/s]") k (mkcanvas (S f) (cv_axes c ++ [A0] ++ mid ++ [A3])) =
    k tt (mkcanvas (S f) (cv_axes c ++ [A0'] ++ mid ++ [A3]))).
  { intros B k. unfold and_then, set_ylabel, on. cbn [cv_figs cv_axes]. rewrite (app_assoc (cv_axes c)), change_app by (rewrite app_length; cbn; lia). rewrite change_last, <- app_assoc. reflexivity. }
  unfold results_figures. unfold and_then at 1. fold s_in s_out. rewrite E. cbn [snd seq Nat.add]. rewrite S1. set (n := List.length (cv_axes c)). rewrite <- Lm.
  set (ax1 := cv_axes c ++ [A0'] ++ mid ++ [A3]). assert (L1 : (List.length ax1 = n + (2 + List.length mid))%nat) by (unfold ax1; rewrite !app_length; cbn; lia).
  assert (X1 : firstn n ax1 = cv_axes c) by (unfold ax1, n; rewrite firstn_app, firstn_all, Nat.sub_diag; apply app_nil_r).
  assert (X2 : nth_error ax1 n = Some A0') by (unfold ax1, n; rewrite nth_error_app2 by lia; rewrite Nat.sub_diag; reflexivity).
  assert (X3 : forall j a, (n <= j < n + (2 + List.length mid))%nat -> nth_error ax1 j = Some a -> ax_fig a = f).
  { intros j a Hj Ha. unfold ax1 in Ha. rewrite nth_error_app2 in Ha by (fold n; lia). fold n in Ha. apply nth_error_In in Ha.
    cbn [app] in Ha. destruct Ha as [<-|Ha]; [exact F0|]. apply in_app_or in Ha as [Ha|[<-|[]]]; [|exact F3]. exact (proj1 (Forall_forall _ _) Fm a Ha). }
  assert (Triv : exists c2 fig2, (mkcanvas (S f) ax1, Ok ((f, n :: seq (S n) (S (List.length mid))), None)) = (c2, Ok ((f, seq n (2 + List.length mid)), fig2)) /\
    fig2 = @None (nat * list nat) /\ firstn n (cv_axes c2) = cv_axes c /\ (List.length (cv_axes c2) = n + (2 + List.length mid) + match fig2 with Some _ => 5 | None => 0 end)%nat /\
    (forall j a, (n <= j < n + (2 + List.length mid))%nat -> nth_error (cv_axes c2) j = Some a -> ax_fig a = f) /\
    (exists a, nth_error (cv_axes c2) n = Some a /\ ax_ylabel a = Some "Accel. [m/s/s]")).
  { eexists. exists None. split; [reflexivity|]. cbn [cv_axes]. split; [reflexivity|]. split; [exact X1|]. split; [lia|]. split; [exact X3|]. exists A0'. split; [exact X2|reflexivity]. }
  destruct (rr_max_avd r) as [avd|]; [|exact Triv]. destruct (rr_max_gt r) as [gt|]; [|exact Triv]. clear Triv.
  destruct (Hm avd gt eq_refl eq_refl) as (Hne & La & Lg). destruct (rmax1_spec (col 0 avd) 0 Hne) as (dp & Edp & _). apply rmax1_greatest in Edp.
  rewrite run_assoc. unfold and_then at 1. rewrite (C113_maxima avd gt _ dp Edp La Lg). rewrite run_done. cbn [cv_axes cv_figs]. unfold done.
  eexists. eexists. split; [reflexivity|]. cbn [cv_axes]. split; [rewrite L1; reflexivity|].
  split; [rewrite firstn_app, X1; replace (n - List.length ax1)%nat with 0%nat by lia; apply app_nil_r|].
  split; [rewrite app_length; cbn [List.length]; lia|]. split.
  - intros j a Hj Ha. rewrite nth_error_app1 in Ha by lia. apply (X3 j a Hj Ha).
  - exists A0'. split; [rewrite nth_error_app1 by lia; exact X2|reflexivity].
Qed.

(** ** C114 image files *)

(** [d] has the directory [s]. *)
Definition has_dir (d : disk) (s : string) : Prop := In s (dk_dirs d).
Lemma is_dir_iff d s : is_dir d s = true <-> has_dir d s.
Proof. unfold is_dir, has_dir. rewrite existsb_exists. split; [intros (x & I & E); apply String.eqb_eq in E; subst; exact I|intros I; exists s; split; [exact I|apply String.eqb_refl]]. Qed.

(** The directory asked for is made and gets the first image; the second image goes to the directory of the results whatever
    directory was asked for, and the call fails after writing the first one when that directory does not exist. *)
Theorem C114_files : forall h r output_dir c d c1 fig1 fig2, results_figures h r c = (c1, Ok (fig1, fig2)) ->
  let target := match output_dir with Some s => s | None => rr_dir r end in
  let first := (target, rr_name r ++ "_ground_motions.png")%string in
  let second := (rr_dir r, rr_name r ++ "_max_profiles.png")%string in
  (exists d', results_plot h r false output_dir c d = (c1, d', Ok (fig1, fig2)) /\ d' = d) /\
  exists d', (forall s, has_dir d' s <-> has_dir d s \/ s = target) /\
    (fig2 = None -> results_plot h r true output_dir c d = (c1, d', Ok (fig1, fig2)) /\ dk_files d' = dk_files d ++ [first]) /\
    (fig2 <> None -> target = rr_dir r \/ has_dir d (rr_dir r) ->
       results_plot h r true output_dir c d = (c1, d', Ok (fig1, fig2)) /\ dk_files d' = dk_files d ++ [first; second]) /\
    (fig2 <> None -> target <> rr_dir r -> ~ has_dir d (rr_dir r) ->
       results_plot h r true output_dir c d = (c1, d', Err FileNotFoundError) /\ dk_files d' = dk_files d ++ [first]).
Proof.
  intros h r od c d c1 fig1 fig2 E target first second. unfold results_plot. rewrite E. cbn [snd]. split; [eexists; split; reflexivity|].
  unfold results_save. fold target.
  assert (M : (forall s, has_dir (makedirs d target) s <-> has_dir d s \/ s = target) /\ dk_files (makedirs d target) = dk_files d).
  { unfold makedirs. destruct (is_dir d target) eqn:I.
    - apply is_dir_iff in I. split; [|reflexivity]. intros s. split; [auto|]. intros [H|H]; [exact H|subst s; exact I].
    - split; [|reflexivity]. intros s. unfold has_dir. cbn [dk_dirs In]. split; [intros [H|H]; [right; congruence|left; exact H]|intros [H|H]; [right; exact H|left; congruence]]. }
  destruct M as [M1 M2]. set (d0 := makedirs d target) in *. clearbody d0.
  assert (T : is_dir d0 target = true) by (apply is_dir_iff, M1; right; reflexivity).
  assert (SF : savefig d0 target (rr_name r ++ "_ground_motions.png")%string = (mkdisk (dk_dirs d0) (dk_files d ++ [first]), Ok tt)) by (unfold savefig; rewrite T, M2; reflexivity).
  rewrite !SF.
  assert (Sd : is_dir d0 (rr_dir r) = true <-> target = rr_dir r \/ has_dir d (rr_dir r)).
  { rewrite is_dir_iff, M1. intuition congruence. }
  destruct fig2 as [p2|].
  - destruct (is_dir d0 (rr_dir r)) eqn:I.
    + exists (mkdisk (dk_dirs d0) (dk_files d ++ [first; second])). split; [exact M1|]. split; [discriminate|]. split.
      * intros _ _. split; [|reflexivity]. unfold savefig, is_dir in *. cbn [dk_dirs dk_files]. rewrite I. rewrite <- app_assoc. reflexivity.
      * intros _ N1 N2. destruct (proj1 Sd eq_refl) as [X|X]; contradiction.
    + exists (mkdisk (dk_dirs d0) (dk_files d ++ [first])). split; [exact M1|]. split; [discriminate|]. split.
      * intros _ X. apply Sd in X. discriminate.
      * intros _ _ _. split; [|reflexivity]. unfold savefig, is_dir in *. cbn [dk_dirs dk_files]. rewrite I. reflexivity.
  - exists (mkdisk (dk_dirs d0) (dk_files d ++ [first])). split; [exact M1|]. split; [|split; congruence].
    intros _. cbn [dk_files]. split; reflexivity.
Qed.

(** Results that cannot be drawn leave the disk alone. *)
Theorem C114_refused : forall h r save output_dir c d c1 e, results_figures h r c = (c1, Err e) -> results_plot h r save output_dir c d = (c1, d, Err e).
Proof. intros h r save od c d c1 e E. unfold results_plot. rewrite E. reflexivity. Qed.

(** ** C115 figures of damping fits *)
Lemma F2_length {A B} (P : A -> B -> Prop) l m : Forall2 P l m -> List.length l = List.length m.
Proof. induction 1; cbn; congruence. Qed.
Lemma F2_impl {A B} (P Q : A -> B -> Prop) l m : (forall a b, P a b -> Q a b) -> Forall2 P l m -> Forall2 Q l m.
Proof. intros H. induction 1; constructor; auto. Qed.

Section Fit115.
Variable damping_of : dict -> list R -> res (list R).
Variable opt : list (R * R) -> list R.

(** The fitted curves are drawn at 50 strains from 1e-6 to 0.1, evenly spaced in the logarithm. *)
Definition fit_strains : list R := map (fun k => Rpower 10 (-6 + INR k * (5 / 49))) (seq 0 50).
Lemma fit_grid : logspace (log10 (1 / 10000 / 100)) (log10 (10 / 100)) 50 = fit_strains.
Proof.
  unfold logspace, fit_strains, linspace. rewrite map_map. apply map_ext. intros k. cbn [Nat.eqb Nat.sub].
  replace (1 / 10000 / 100) with (1 / 1000000) by lra. replace (10 / 100) with (1 / 10) by lra. rewrite Prop_mkzfit.log_lo, Prop_mkzfit.log_hi.
  replace (INR 49) with 49 by (cbn; lra). f_equal. lra.
Qed.

(** A panel: the data and the fitted curve (both in per cent), the curve moved up by the first damping of the data drawn. *)
Definition fit_panel (f : nat) (x y curve : list R) (up : R) : axes :=
  mkaxes f [mkline x y (Some "data"); mkline (map (fun s => 100 * s) fit_strains) (map (fun v => 100 * v + up) curve) (Some "curve fit")] [] None None None None true.

Lemma fit_panels_run h f : forall locs ps ys n l, Forall2 (fun p y => damping_of p fit_strains = Ok y /\ List.length y = 50%nat) ps ys -> List.length locs = List.length ps ->
  (forall k, In k locs -> sig_at h k <> []) ->
  fit_panels damping_of h locs ps f (mkcanvas n l) =
  (mkcanvas n (l ++ map (fun q => fit_panel f (times (sig_at h (fst q))) (vals (sig_at h (fst q))) (snd q) (first_damping (sig_at h (fst q)))) (combine locs ys)), Ok tt).
Proof.
  induction locs as [|k locs IH]; intros ps ys n l F L N.
  - destruct F; [|discriminate]. cbn. rewrite app_nil_r. reflexivity.
  - destruct F as [|p y ps ys [Hp Hy] F]; [discriminate|]. cbn [fit_panels]. rewrite run_sub. cbn [get nth_error]. 
    change (lift (get (p :: ps) 0)) with (lift (Ok p)). rewrite lift_ok.
    unfold plot_damping_fit. rewrite run_assoc. change (fig_ax (Some f) (Some (List.length l))) with (done (f, List.length l)). rewrite run_done. cbn [snd]. rewrite run_assoc.
    assert (G : get (vals (sig_at h k)) 0 = Ok (first_damping (sig_at h k))).
    { specialize (N k (or_introl eq_refl)). destruct (sig_at h k) as [|[a b] s]; [congruence|reflexivity]. }
    rewrite G, lift_ok, run_assoc. rewrite run_draw by (try reflexivity; unfold times, vals; rewrite !map_length; reflexivity).
    rewrite fit_grid, run_assoc, Hp, lift_ok, run_assoc. rewrite run_draw by (try reflexivity; unfold times_; rewrite !map_length, Hy; unfold fit_strains; rewrite map_length, seq_length; reflexivity).
    rewrite run_done. cbn [tl]. rewrite (IH ps ys) by (auto; intros; apply N; right; assumption).
    cbn [combine map fst snd]. rewrite <- app_assoc. cbn [app]. do 4 f_equal. unfold fit_panel, plus_line, empty_axes. cbn [ax_fig ax_lines ax_texts ax_title ax_ylabel ax_xlim ax_ylim ax_shown app].
    unfold times_. rewrite (map_ext (fun x => x * 100) (fun s => 100 * s)) by (intros; lra).
    rewrite (map_ext (fun x => x * 100 + first_damping (sig_at h k)) (fun v => 100 * v + first_damping (sig_at h k))) by (intros; lra). reflexivity.
Qed.

(** The figure of a serial run differs from the figure of a parallel run of the same fits: in the serial run the arrays drawn have lost
    their first damping, in the data and in the curves. *)
Theorem C115_serial_parallel : forall fit h locs c, is_fit opt fit -> locs <> [] ->
  (forall l, In l locs -> (l < List.length h)%nat /\ fit_ready (sig_at h l)) ->
  (forall l p, In l locs -> snd (fit h l) = Ok p -> exists y, damping_of p fit_strains = Ok y /\ List.length y = 50%nat) ->
  exists ps ys h',
    Forall2 (fun l p => snd (fit h l) = Ok p) locs ps /\ Forall2 (fun p y => damping_of p fit_strains = Ok y) ps ys /\
    fit_all_show damping_of fit true h locs c =
      (mkcanvas (S (cv_figs c)) (cv_axes c ++ map (fun q => let s := sig_at h (fst q) in
          fit_panel (cv_figs c) (times s) (vals s) (snd q) (first_damping s)) (combine locs ys)), h, Ok ps) /\
    fit_all_show damping_of fit false h locs c =
      (mkcanvas (S (cv_figs c)) (cv_axes c ++ map (fun q => let s := sig_at h (fst q) in
          fit_panel (cv_figs c) (times s) (map (fun v => v - first_damping s) (vals s)) (snd q) 0) (combine locs ys)), h', Ok ps).
Proof.
  intros fit h locs c Hf Hne Hr Hd. destruct (C46_serial_parallel_agree opt fit h locs Hf Hr) as (ps & h' & E1 & E2 & F & O & _).
  assert (Y : exists ys, Forall2 (fun p y => damping_of p fit_strains = Ok y /\ List.length y = 50%nat) ps ys).
  { clear E1 E2 O Hne Hr. induction F as [|l p locs ps Hp F IH]; [exists []; constructor|].
    destruct IH as (ys & Hys); [intros; eapply Hd; [right|]; eassumption|]. destruct (Hd l p (or_introl eq_refl) Hp) as (y & Hy). exists (y :: ys). constructor; assumption. }
  destruct Y as (ys & Y). pose proof (F2_length _ _ _ F) as L. exists ps, ys, h'. split; [exact F|]. split; [eapply F2_impl; [|exact Y]; cbn; intros ? ? []; assumption|].
  assert (R1 : fit_panels damping_of h locs ps (cv_figs c) (mkcanvas (S (cv_figs c)) (cv_axes c)) = _) by (apply (fit_panels_run h (cv_figs c) locs ps ys); [exact Y|exact L|intros k Hk; apply (Hr k Hk)]).
  assert (N2 : forall k, In k locs -> sig_at h' k <> []).
  { intros k Hk. rewrite (O k Hk). destruct (Hr k Hk) as (_ & N & _). unfold offset. destruct (sig_at h k); [congruence|discriminate]. }
  pose proof (fit_panels_run h' (cv_figs c) locs ps ys (S (cv_figs c)) (cv_axes c) Y L N2) as R2.
  unfold fit_all_show. rewrite E1, E2. destruct locs as [|l0 locs0] eqn:EL; [congruence|]. rewrite <- EL in *. unfold and_then at 1 2. cbn [new_figure]. unfold new_figure.
  rewrite R1, R2. split; [reflexivity|]. do 4 f_equal. apply map_ext_in. intros [k y] Hk. cbn [fst snd]. apply in_combine_l in Hk. rewrite (O k Hk).
  destruct (Hr k Hk) as (_ & N & _). rewrite first_offset by exact N. f_equal; unfold times, vals, offset; rewrite !map_map; reflexivity.
Qed.

(** The two figures show the same exactly when every table starts at zero damping. *)
Theorem C115_same_figure : forall fit h locs c, is_fit opt fit -> locs <> [] ->
  (forall l, In l locs -> (l < List.length h)%nat /\ fit_ready (sig_at h l)) ->
  (forall l p, In l locs -> snd (fit h l) = Ok p -> exists y, damping_of p fit_strains = Ok y /\ List.length y = 50%nat) ->
  (fst (fst (fit_all_show damping_of fit true h locs c)) = fst (fst (fit_all_show damping_of fit false h locs c)) <->
   forall l, In l locs -> first_damping (sig_at h l) = 0).
Proof.
  intros fit h locs c Hf Hne Hr Hd. destruct (C115_serial_parallel fit h locs c Hf Hne Hr Hd) as (ps & ys & h' & F & Y & -> & ->). cbn [fst].
  assert (L : List.length locs = List.length ys) by (rewrite (F2_length _ _ _ F); apply (F2_length _ _ _ Y)). split.
  - intros E l Hl. injection E as E. apply app_inv_head in E.
    assert (X : exists y, In (l, y) (combine locs ys)).
    { clear - Hl L. revert ys L. induction locs as [|a locs IH]; intros [|b ys] L; cbn in L; try discriminate; [destruct Hl|]. destruct Hl as [->|Hl]; [exists b; left; reflexivity|].
      destruct (IH Hl ys ltac:(lia)) as (y & Hy). exists y. right. exact Hy. }
    destruct X as (y & Hy). pose proof (ext_in_map E (l, y) Hy) as P. cbn [fst snd] in P. unfold fit_panel in P. injection P as P _.
    destruct (Hr l Hl) as (_ & N & _). destruct (sig_at h l) as [|[a b] s]; [congruence|]. cbn in P |- *. injection P as P _. lra.
  - intros H0. f_equal. f_equal. apply map_ext_in. intros [k y] Hk. cbn [fst snd]. apply in_combine_l in Hk. rewrite (H0 k Hk). f_equal.
    rewrite <- (map_id (vals (sig_at h k))) at 1. apply map_ext. intros; lra.
Qed.

(** No layers: nothing to draw, an error after the (empty) fit. *)
Theorem C115_none : forall fit parallel h c, fit_all_show damping_of fit parallel h [] c = (c, h, Err ValueError).
Proof. intros fit [] h c; reflexivity. Qed.
End Fit115.

(** Two results with agreeing times, one with tables of maxima saved away from its own directory. *)
Definition ex_motion (a : nat) : motion := mkmotion 1 2 [0; 1] a a a 1 1 1 (mkarias [] [] 1 0) (1, 1, 1).
Definition ex_results (p : vsobj) (dir : string) : results :=
  mkresults (ex_motion 0) (ex_motion 1) p (Some (mkarr 2 [[0; 5]; [1; 2]; [3; 4]; [5; 6]])) (Some (mkarr 2 [[1; 4]; [1; 1]; [2; 2]]))
    (Some (mkfs 1 [] 2 [1; 2] 1 2 [RtoC 1; RtoC 2])) None None None None None None "run" dir.
Definition ex_heap : sheap := [[(0, 1); (1, -2)]; [(0, 0); (1, 3)]].

Lemma ex_same : same_times (times (sig_at ex_heap 0)) (times (sig_at ex_heap 1)).
Proof. split; [reflexivity|]. intros [|[|k]] Hk; cbn in Hk |- *; try lia; unfold Rminus; rewrite Rplus_opp_r, Rabs_R0; pose proof (Rabs_pos 0); pose proof (Rabs_pos 1); lra. Qed.

Example C113_instance : forall p dir c, exists c2,
  results_figures ex_heap (ex_results p dir) c = (c2, Ok ((cv_figs c, seq (List.length (cv_axes c)) 4), Some (S (cv_figs c), seq (List.length (cv_axes c) + 4) 5))) /\
  ~ same_times [0; 1] [0; 2] /\ snd (plot_site_amp [(0, 1); (1, 1)] [(0, 1); (2, 1)] None None None None None "" "" "" "" c) = Err AssertionError.
Proof.
  intros p dir c. destruct (C113_results ex_heap (ex_results p dir) c) as (c2 & fig2 & E & E2 & _).
  - cbn. lia.
  - exact ex_same.
  - intros t Et. injection Et as <-. split; [reflexivity|discriminate].
  - intros avd gt E1 E2. injection E1 as <-. injection E2 as <-. split; [discriminate|]. split; intros [|[|[|[|j]]]] Hj; try lia; reflexivity.
  - exists c2. cbv zeta in E, E2. rewrite E2 in E. split; [exact E|].
    assert (N : ~ same_times [0; 1] [0; 2]).
    { intros [_ X]. specialize (X 1%nat ltac:(cbn; lia)). cbn in X. rewrite (Rabs_left (1 - 2)), (Rabs_right 2) in X by lra. lra. }
    split; [exact N|]. rewrite (proj2 (C113_failures [(0, 1); (1, 1)] [(0, 1); (2, 1)] None None None None None "" "" "" "" c ltac:(cbn; lia) ltac:(cbn; lia)) eq_refl N). reflexivity.
Qed.

Example C114_instance : forall p c, exists c2 d',
  results_plot ex_heap (ex_results p "runs") true (Some "figures") c (mkdisk [] []) = (c2, d', Err FileNotFoundError) /\
  dk_files d' = [("figures", "run_ground_motions.png")].
Proof.
  intros p c. destruct (C113_instance p "runs" c) as (c2 & E & _).
  destruct (C114_files ex_heap (ex_results p "runs") (Some "figures") c (mkdisk [] []) _ _ _ E) as (_ & d' & _ & _ & _ & H).
  exists c2, d'. apply H; [discriminate|discriminate|intros []].
Qed.

Example C115_instance : let opt := fun _ : list (R * R) => [] in let dmp := fun (_ : dict) (l : list R) => Ok l in let h := [[(1 / 1000, 1); (1, 3)]] in
  (forall l, In l [0%nat] -> (l < List.length h)%nat /\ fit_ready (sig_at h l)) /\
  fst (fst (fit_all_show dmp (fit_HH opt) true h [0%nat] (mkcanvas 0 []))) <> fst (fst (fit_all_show dmp (fit_HH opt) false h [0%nat] (mkcanvas 0 []))).
Proof.
  cbv zeta. set (h := [[(1 / 1000, 1); (1, 3)]]).
  assert (H : forall l, In l [0%nat] -> (l < List.length h)%nat /\ fit_ready (sig_at h l)).
  { intros l [<-|[]]. split; [cbn; lia|]. unfold fit_ready, nonneg. cbn [sig_at nth h first_damping snd]. split; [discriminate|]. split; repeat constructor; cbn [fst snd]; lra. }
  split; [exact H|].
  assert (D : forall l p, In l [0%nat] -> snd (fit_HH (fun _ => []) h l) = Ok p -> exists y, (fun (_ : dict) (l : list R) => Ok l) p fit_strains = Ok y /\ List.length y = 50%nat).
  { intros l p _ _. eexists. split; [reflexivity|]. unfold fit_strains. rewrite map_length, seq_length. reflexivity. }
  intros E. pose proof (proj1 (C115_same_figure (fun _ l => Ok l) (fun _ => []) (fit_HH (fun _ => [])) h [0%nat] (mkcanvas 0 []) (or_introl eq_refl) ltac:(discriminate) H D) E) as E0.
  specialize (E0 0%nat (or_introl eq_refl)). cbn in E0. lra.
Qed.
