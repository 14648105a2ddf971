(** C125: figures of truncations and of response spectra. *)
From Coq Require Import Reals List Bool ZArith Lia Lra String.
From Verif Require Import Base M_generic M_motion M_spectra M_amplify M_pool M_figures M_sigfig.
From Verif Require Import P_generic P_motion P_spectra Prop_motion Prop_motion_ops Prop_spectra Prop_freqspec P_figures Prop_figres.
Import ListNotations.
Open Scope string_scope.
Open Scope list_scope.
Open Scope R_scope.

(** ** Truncation *)

(** Histories of one motion have the same number of samples. *)
Definition complete (h : sheap) (m : motion) : Prop :=
  let n := List.length (sig_at h (m_accel m)) in
  List.length (m_time m) = n /\ List.length (sig_at h (m_veloc m)) = n /\ List.length (sig_at h (m_displ m)) = n.

(** Every motion constructed is complete. *)
Lemma constructed_complete h loc u ty h' m : (loc < List.length h)%nat -> gm_init h loc u ty = (h', Ok m) -> complete h' m.
Proof.
  intros Hl E. destruct (C71_constructed_motion h loc u ty h' m Hl E) as (a & v & w & Ea & Ev & Ew & _ & Ta & Tv & Tw & _ & _ & _ & _ & _ & _ & _ & _ & _ & Tm & _).
  unfold complete. rewrite Ea, Ev, Ew, Tm, linspace_length. rewrite <- (times_length a), <- (times_length v), <- (times_length w), Ta, Tv, Tw, times_length. auto.
Qed.

Lemma pyslice_same {A B} a b (l : list A) (k : list B) : List.length l = List.length k -> List.length (pyslice a b l) = List.length (pyslice a b k).
Proof. intros H. unfold pyslice, slice. rewrite !firstn_length, !skipn_length, H. reflexivity. Qed.

(** Three panels: the original and the truncated history of acceleration, velocity and displacement. *)
Definition truncation_panels (f : nat) (time window a a' v v' u u' : list R) : list axes :=
  [mkaxes f [mkline time a (Some "original"); mkline window a' (Some "truncated")] [] None (Some "Accel. [m/s/s]") None None true;
   mkaxes f [mkline time v None; mkline window v' None] [] None (Some "Veloc. [m/s]") None None true;
   mkaxes f [mkline time u None; mkline window u' None] [] None (Some "Displ. [m]") None None true].

Lemma figure_run h m n1 n2 tr v u c : complete h m -> num_int tr = Ok (v, u) -> List.length tr = List.length (pyslice n1 n2 (m_time m)) -> List.length v = List.length tr -> List.length u = List.length tr ->
  truncation_figure h m n1 n2 tr c =
  (mkcanvas (S (cv_figs c)) (cv_axes c ++ truncation_panels (cv_figs c) (m_time m) (pyslice n1 n2 (m_time m)) (vals (sig_at h (m_accel m))) (vals tr)
     (vals (sig_at h (m_veloc m))) (vals v) (vals (sig_at h (m_displ m))) (vals u)), Ok (cv_figs c)).
Proof.
  intros (L1 & L2 & L3) E L Lv Lu. destruct c as [n l]. unfold truncation_figure. cbv zeta. change (and_then new_figure ?k (mkcanvas n l)) with (k n (mkcanvas (S n) l)). cbv beta. cbn [cv_figs cv_axes].
  rewrite run_sub. rewrite run_draw by (try reflexivity; rewrite vals_length; congruence). rewrite run_draw by (try reflexivity; rewrite vals_length; congruence). rewrite run_ylabel by reflexivity.
  rewrite run_sub. rewrite run_draw by (try reflexivity; rewrite vals_length; congruence). rewrite E. change (and_then (lift (Ok (v, u))) ?k) with (k (v, u)). cbv beta. cbn [fst snd].
  rewrite run_draw by (try reflexivity; rewrite vals_length; congruence). rewrite run_ylabel by reflexivity.
  rewrite run_sub. rewrite run_draw by (try reflexivity; rewrite vals_length; congruence). rewrite run_draw by (try reflexivity; rewrite vals_length; congruence). rewrite run_ylabel by reflexivity.
  unfold done. rewrite <- !app_assoc. reflexivity.
Qed.

Lemma short_int s : (List.length s < 2)%nat -> num_int s = Err IndexError.
Proof. intros H. destruct s as [|p [|q s]]; [reflexivity|reflexivity|cbn in H; lia]. Qed.

Lemma figure_short h m n1 n2 tr c : complete h m -> (List.length tr < 2)%nat -> List.length tr = List.length (pyslice n1 n2 (m_time m)) ->
  exists c', truncation_figure h m n1 n2 tr c = (c', Err IndexError) /\ cv_figs c' = S (cv_figs c) /\ List.length (cv_axes c') = (List.length (cv_axes c) + 2)%nat.
Proof.
  intros (L1 & L2 & L3) S2 L. destruct c as [n l]. unfold truncation_figure. cbv zeta. change (and_then new_figure ?k (mkcanvas n l)) with (k n (mkcanvas (S n) l)). cbv beta. cbn [cv_figs cv_axes].
  rewrite run_sub. rewrite run_draw by (try reflexivity; rewrite vals_length; congruence). rewrite run_draw by (try reflexivity; rewrite vals_length; congruence). rewrite run_ylabel by reflexivity.
  rewrite run_sub. rewrite run_draw by (try reflexivity; rewrite vals_length; congruence). rewrite (short_int tr S2). eexists. split; [reflexivity|]. cbn [cv_figs cv_axes]. rewrite !app_length. cbn. split; [reflexivity|lia].
Qed.

(** Without [show_fig] nothing is drawn and no figure is returned.  With it the motion and the sample numbers are the
    same, and one figure with three panels is drawn and returned. *)
Theorem C125_truncate : forall h m lim1 lim2 ar e1 e2 c, complete h m ->
  (let out := gm_truncate h m lim1 lim2 ar e1 e2 in
   gm_truncate_show false h m lim1 lim2 ar e1 e2 c = (c, fst out, match snd out with Ok (m', ns) => Ok (m', None, ns) | Err e => Err e end)) /\
  (forall h' m' n1 n2, gm_truncate h m lim1 lim2 ar e1 e2 = (h', Ok (m', (n1, n2))) ->
     gm_truncate_show true h m lim1 lim2 ar e1 e2 c =
       (mkcanvas (S (cv_figs c)) (cv_axes c ++ truncation_panels (cv_figs c) (m_time m) (pyslice n1 n2 (m_time m))
          (vals (sig_at h (m_accel m))) (vals (sig_at h' (m_accel m'))) (vals (sig_at h (m_veloc m))) (vals (sig_at h' (m_veloc m')))
          (vals (sig_at h (m_displ m))) (vals (sig_at h' (m_displ m')))),
        h', Ok (m', Some (cv_figs c), (n1, n2)))) /\
  (forall h' e, gm_truncate h m lim1 lim2 ar e1 e2 = (h', Err e) -> exists c' h'' e', gm_truncate_show true h m lim1 lim2 ar e1 e2 c = (c', h'', Err e') /\
     (c' = c /\ e' = e \/ e' = IndexError /\ cv_figs c' = S (cv_figs c) /\ List.length (cv_axes c') = (List.length (cv_axes c) + 2)%nat)).
Proof.
  intros h m lim1 lim2 ar e1 e2 c HC. unfold gm_truncate_show, gm_truncate.
  destruct (Rltb e1 0 || Rltb e2 0)%bool; [split; [reflexivity|split; [intros; discriminate|intros h' e E; exists c, h, e; split; [congruence|left; auto]]]|].
  destruct (Rleb lim2 lim1); [split; [reflexivity|split; [intros; discriminate|intros h' e E; exists c, h, e; split; [congruence|left; auto]]]|].
  cbv zeta. set (s := sig_at h (m_accel m)).
  destruct (if ar then arias_time_bounds (times s) (ia_norm (m_arias m)) lim1 lim2 else Ok (lim1, lim2)) as [[t1 t2]|e0]; [|split; [reflexivity|split; [intros; discriminate|intros h' e E; exists c, h, e; split; [congruence|left; auto]]]].
  set (n1 := if (py_int ((t1 - e1) / m_dt m) <? 0)%Z then 0%Z else py_int ((t1 - e1) / m_dt m)).
  set (n2 := if (Z.of_nat (m_npts m) <? py_int ((t2 + e2) / m_dt m))%Z then Z.of_nat (m_npts m) else py_int ((t2 + e2) / m_dt m)).
  set (T := pyslice 0 (n2 - n1) (times s)). set (A := pyslice n1 n2 (vals s)).
  destruct (Nat.eqb_spec (List.length T) (List.length A)) as [EL|EL]; cbn [negb]; [|split; [reflexivity|split; [intros; discriminate|intros h' e E; exists c, h, e; split; [congruence|left; auto]]]].
  set (tr := combine T A). assert (Ltr : List.length tr = List.length (pyslice n1 n2 (m_time m))).
  { unfold tr. rewrite combine_length, EL, Nat.min_id. unfold A. apply pyslice_same. rewrite vals_length. symmetry. apply HC. }
  assert (HL : (List.length h < List.length (h ++ [tr]))%nat) by (rewrite app_length; cbn; lia).
  assert (ES : sig_at (h ++ [tr]) (List.length h) = tr) by (unfold sig_at; rewrite app_nth2, Nat.sub_diag by lia; reflexivity).
  pose proof (C71_constructor_accepts_iff (h ++ [tr]) (List.length h) U_m T_accel HL) as [Hi He].
  destruct (gm_init (h ++ [tr]) (List.length h) U_m T_accel) as [h1 [m1|e1']] eqn:EI.
  - split; [reflexivity|]. split; [|intros; discriminate]. intros h' m' k1 k2 E. cbn [bind] in E. assert (h' = h1 /\ m' = m1 /\ k1 = n1 /\ k2 = n2) as (-> & -> & -> & ->) by (repeat split; congruence).
    destruct (C71_constructed_motion _ _ _ _ _ _ HL EI) as (a & v & w & Ea & Ev & Ew & (Had & Hint) & _ & Tv & Tw & _). rewrite ES in *. rewrite conv_m in *.
    rewrite (figure_run h m n1 n2 tr v w c HC Hint Ltr); [|rewrite <- (times_length v), Tv; apply times_length|rewrite <- (times_length w), Tw; apply times_length].
    cbn [bind]. rewrite Ea, Ev, Ew, Had. reflexivity.
  - split; [reflexivity|]. split; [intros; discriminate|]. intros h' e E.
    assert (S2 : (List.length tr < 2)%nat).
    { destruct (Nat.lt_ge_cases (List.length tr) 2) as [S2|S2]; [exact S2|exfalso]. destruct (proj2 Hi) as (h2 & m2 & E2); [|congruence]. rewrite ES. split; [exact S2|]. split; [discriminate|split; [discriminate|reflexivity]]. }
    destruct (figure_short h m n1 n2 tr c HC S2 Ltr) as (c' & EF & F1 & F2). rewrite EF. cbn [bind]. exists c', h, IndexError. split; [reflexivity|]. right. auto.
Qed.

(** A window of one sample: the error depends on [show_fig], and a figure is left behind. *)
Definition three : signal := [(0, 1); (1/10, 2); (2/10, 1)].
Theorem C125_one_sample : exists h m, complete h m /\ 0 < m_dt m /\ (forall c,
  (exists h', gm_truncate_show false h m 0 (1/10) false 0 0 c = (c, h', Err ValueError)) /\
  exists c' h', gm_truncate_show true h m 0 (1/10) false 0 0 c = (c', h', Err IndexError) /\ cv_figs c' = S (cv_figs c)).
Proof.
  destruct (fresh_accel [] three) as (h' & m & E & Ea & _); [cbn; lia|]. change ([] ++ [three]) with [three] in E. change (List.length (A := signal) []) with 0%nat in E.
  assert (HL : (0 < List.length [three])%nat) by (cbn; lia).
  destruct (C71_constructed_motion _ _ _ _ _ _ HL E) as (a & v & w & _ & _ & _ & _ & _ & _ & _ & _ & _ & _ & Ed & En & _).
  pose proof (constructed_complete _ _ _ _ _ _ HL E) as HC.
  assert (D : m_dt m = 1/10) by (rewrite Ed; unfold step_of, sig_at, three; cbn; lra). assert (N : m_npts m = 3%nat) by exact En. exists h', m. split; [exact HC|]. split; [rewrite D; lra|]. intros c.
  assert (P0 : forall z x, IZR z <= x < IZR z + 1 -> Int_part x = z).
  { intros z x H. unfold Int_part. rewrite <- (tech_up x (z + 1)); [lia| |]; rewrite plus_IZR; lra. }
  assert (P1 : py_int ((0 - 0) / (1/10)) = 0%Z). { unfold py_int. replace ((0 - 0) / (1/10)) with 0 by lra. rewrite (proj2 (Rleb_true 0 0)) by lra. apply P0. lra. }
  assert (P2 : py_int ((1/10 + 0) / (1/10)) = 1%Z). { unfold py_int. replace ((1/10 + 0) / (1/10)) with 1 by lra. rewrite (proj2 (Rleb_true 0 1)) by lra. apply P0. lra. }
  assert (G : gm_truncate h' m 0 (1/10) false 0 0 = (h' ++ [[(0, 1)]], Err ValueError)).
  { unfold gm_truncate. rewrite (proj2 (Rltb_false 0 0)) by lra. rewrite (proj2 (Rleb_false (1/10) 0)) by lra. cbn [orb]. cbv zeta. rewrite D, N, Ea, P1, P2. unfold three. cbn [Z.ltb Z.compare Z.of_nat].
    change (gm_init (h' ++ [[(0, 1)]]) (List.length h') U_m T_accel) with (gm_init (h' ++ [[(0, 1)]]) (List.length h') U_m T_accel).
    assert (Q : gm_init (h' ++ [[(0, 1)]]) (List.length h') U_m T_accel = (h' ++ [[(0, 1)]], Err ValueError)).
    { unfold gm_init. assert (S1 : sig_at (h' ++ [[(0, 1)]]) (List.length h') = [(0, 1)]) by (unfold sig_at; rewrite app_nth2, Nat.sub_diag by lia; reflexivity). rewrite S1. reflexivity. }
    rew_init Q. reflexivity. }
  destruct (C125_truncate h' m 0 (1/10) false 0 0 c HC) as (F & _ & K). split.
  - exists (h' ++ [[(0, 1)]]). rewrite F, G. reflexivity.
  - destruct (K _ _ G) as (c' & h2 & e' & E' & [[-> ->]|(-> & F1 & _)]); [|exists c', h2; auto]. exfalso.
    unfold gm_truncate_show in E'. rewrite (proj2 (Rltb_false 0 0)) in E' by lra. rewrite (proj2 (Rleb_false (1/10) 0)) in E' by lra. cbn [orb] in E'. cbv zeta in E'. rewrite D, N, Ea, P1, P2 in E'. unfold three in E'. cbn [Z.ltb Z.compare Z.of_nat] in E'.
    destruct (figure_short h' m 0 1 [(0, 1)] c HC) as (c2 & EF & F1 & _); [cbn; lia| |].
    { destruct HC as (L & _). rewrite Ea in L. cbn in L. rewrite pyslice_length, L by lia. reflexivity. }
    match type of E' with context [truncation_figure ?a ?b ?x ?y ?z ?w] => change (truncation_figure a b x y z w) with (truncation_figure h' m 0 1 [(0, 1)] c) in E' end. rewrite EF in E'. cbv beta iota delta [bind] in E'.
    apply (f_equal snd) in E'. cbn [snd] in E'. discriminate E'.
Qed.

(** ** What the truncated lines show *)

(** For sample numbers inside the record, the truncated acceleration is drawn on top of the original one (although the
    new motion starts at the time of the first sample of the record), and, for a motion built from acceleration, the truncated velocity
    is the original velocity less its value just before the window. *)
Theorem C125_window : forall h m lim1 lim2 ar e1 e2 h' m' n1 n2, complete h m ->
  gm_truncate h m lim1 lim2 ar e1 e2 = (h', Ok (m', (Z.of_nat n1, Z.of_nat n2))) -> (n1 <= n2 <= List.length (sig_at h (m_accel m)))%nat ->
  let window := pyslice (Z.of_nat n1) (Z.of_nat n2) (m_time m) in
  List.length window = (n2 - n1)%nat /\
  forall k, (k < n2 - n1)%nat ->
    nth k window 0 = nth (n1 + k) (m_time m) 0 /\
    nth k (vals (sig_at h' (m_accel m'))) 0 = nth (n1 + k) (vals (sig_at h (m_accel m))) 0 /\
    (forall u, num_int (sig_at h (m_accel m)) = Ok (sig_at h (m_veloc m), u) ->
       nth k (vals (sig_at h' (m_veloc m'))) 0 = nth (n1 + k) (vals (sig_at h (m_veloc m))) 0 - match n1 with O => 0 | S j => nth j (vals (sig_at h (m_veloc m))) 0 end).
Proof.
  intros h m lim1 lim2 ar e1 e2 h' m' n1 n2 HC E Hn window. pose proof HC as (L1 & L2 & L3). set (s := sig_at h (m_accel m)) in *.
  assert (LW : List.length window = (n2 - n1)%nat) by (unfold window; rewrite pyslice_length, L1, !Nat2Z.id by lia; fold s; lia). split; [exact LW|].
  assert (TR : exists tr, sig_at h' (m_accel m') = tr /\ num_int tr = Ok (sig_at h' (m_veloc m'), sig_at h' (m_displ m')) /\ tr = combine (pyslice 0 (Z.of_nat n2 - Z.of_nat n1) (times s)) (pyslice (Z.of_nat n1) (Z.of_nat n2) (vals s))).
  { unfold gm_truncate in E. destruct (Rltb e1 0 || Rltb e2 0)%bool; [discriminate|]. destruct (Rleb lim2 lim1); [discriminate|]. cbv zeta in E. fold s in E.
    destruct (if ar then arias_time_bounds (times s) (ia_norm (m_arias m)) lim1 lim2 else Ok (lim1, lim2)) as [[t1 t2]|e0]; [|discriminate].
    set (k1 := if (py_int ((t1 - e1) / m_dt m) <? 0)%Z then 0%Z else py_int ((t1 - e1) / m_dt m)) in E.
    set (k2 := if (Z.of_nat (m_npts m) <? py_int ((t2 + e2) / m_dt m))%Z then Z.of_nat (m_npts m) else py_int ((t2 + e2) / m_dt m)) in E.
    destruct (Nat.eqb _ _); cbn [negb] in E; [|discriminate].
    set (tr := combine (pyslice 0 (k2 - k1) (times s)) (pyslice k1 k2 (vals s))) in E.
    assert (HL : (List.length h < List.length (h ++ [tr]))%nat) by (rewrite app_length; cbn; lia).
    assert (ES : sig_at (h ++ [tr]) (List.length h) = tr) by (unfold sig_at; rewrite app_nth2, Nat.sub_diag by lia; reflexivity).
    destruct (gm_init (h ++ [tr]) (List.length h) U_m T_accel) as [h1 [m1|?]] eqn:EI; cbn [bind] in E; [|discriminate].
    assert (h1 = h' /\ m1 = m' /\ k1 = Z.of_nat n1 /\ k2 = Z.of_nat n2) as (-> & -> & K1 & K2) by (repeat split; congruence).
    destruct (C71_constructed_motion _ _ _ _ _ _ HL EI) as (a & v & w & Ea & Ev & Ew & (Had & Hint) & _). rewrite ES, conv_m in *. exists tr. rewrite Ea, Ev, Ew. split; [exact Had|]. split; [exact Hint|]. unfold tr. rewrite K1, K2. reflexivity. }
  destruct TR as (tr & Etr & Eint & Dtr). set (T := pyslice 0 _ (times s)) in Dtr. set (A := pyslice _ _ (vals s)) in Dtr.
  assert (LT : List.length T = (n2 - n1)%nat) by (unfold T; rewrite pyslice_length, times_length by lia; lia).
  assert (LA : List.length A = (n2 - n1)%nat) by (unfold A; rewrite pyslice_length, vals_length by lia; lia).
  assert (VT : vals tr = A) by (rewrite Dtr; apply combine_vals; lia). assert (TT : times tr = T) by (rewrite Dtr; apply combine_times; lia).
  assert (NA : forall k, (k < n2 - n1)%nat -> nth k A 0 = nth (n1 + k) (vals s) 0) by (intros k Hk; unfold A; rewrite pyslice_nth by (rewrite ?vals_length; lia); rewrite Nat2Z.id; reflexivity).
  assert (Ltr : List.length tr = (n2 - n1)%nat) by (rewrite Dtr, combine_length; lia).
  intros k Hk. split; [unfold window; rewrite pyslice_nth by (rewrite ?L1; lia); rewrite Nat2Z.id; reflexivity|]. split; [rewrite Etr, VT; apply NA, Hk|].
  intros u Eu.
  assert (G2 : (2 <= List.length tr)%nat). { destruct (Nat.lt_ge_cases (List.length tr) 2) as [Q|Q]; [|exact Q]. rewrite (short_int tr Q) in Eint. discriminate. }
  assert (G1 : (2 <= List.length s)%nat) by lia.
  destruct (num_int_spec tr G2) as (v1 & u1 & F1 & _ & _ & _ & _ & V1 & _). destruct (num_int_spec s G1) as (v2 & u2 & F2 & _ & _ & _ & _ & V2 & _).
  assert (v1 = sig_at h' (m_veloc m')) as <- by congruence. assert (E2 : v2 = sig_at h (m_veloc m)) by congruence. rewrite <- E2.
  assert (ST : step_of tr = step_of s).
  { assert (NT : forall j, (j < n2 - n1)%nat -> nth j (times tr) 0 = nth j (times s) 0) by (intros j Hj; rewrite TT; unfold T; rewrite pyslice_nth by (rewrite ?times_length; lia); reflexivity).
    unfold step_of. rewrite !NT by lia. reflexivity. }
  rewrite (V1 k) by lia. rewrite (V2 (n1 + k)%nat) by lia. rewrite ST, VT.
  assert (SUM : forall j, (j <= n2 - n1)%nat -> rsum (firstn (n1 + j) (vals s)) = rsum (firstn n1 (vals s)) + rsum (firstn j A)).
  { induction j as [|j IH]; intros Hj; [rewrite Nat.add_0_r; cbn; lra|]. replace (n1 + S j)%nat with (S (n1 + j)) by lia.
    rewrite (rsum_firstn_S (vals s)) by (rewrite vals_length; lia). rewrite (rsum_firstn_S A) by lia. rewrite IH, NA by lia. lra. }
  replace (S (n1 + k)) with (n1 + S k)%nat by lia. rewrite SUM by lia. destruct n1 as [|j]; [cbn; lra|]. rewrite (V2 j) by lia. lra.
Qed.

(** ** Response spectra *)

(** The figure has the samples used, the accelerations and the pseudo-accelerations returned; it changes nothing else. *)
Theorem C125_spectra : forall s Tmin Tmax n xi k par c, completes n par ->
  response_spectra_show false s Tmin Tmax n xi k par c = (c, response_spectra s Tmin Tmax n xi k par) /\
  match response_spectra s Tmin Tmax n xi k par with
  | Err e => response_spectra_show true s Tmin Tmax n xi k par c = (c, Err e)
  | Ok r => exists lo hi t a SA PSA, let f := cv_figs c in
      response_spectra_show true s Tmin Tmax n xi k par c =
        (mkcanvas (S f) (cv_axes c ++
           [mkaxes f [mkline t a None] [] None (Some "Input accel. [m/s/s]") (Some (lo, hi)) None true;
            mkaxes f [mkline (s_Tn r) SA None] [] None (Some "Spec. accel. [m/s/s]") (Some (Tmin, Tmax)) None true;
            mkaxes f [mkline (s_Tn r) PSA None] [] None (Some "Pseudo S.A. [m/s/s]") (Some (Tmin, Tmax)) None true]), Ok r) /\
      least t lo /\ greatest t hi /\
      (forall i, nth_error t i = nth_error (times s) (i * k) /\ nth_error a i = nth_error (vals s) (i * k)) /\
      map Some SA = map (option_map p_SA) (s_rows r) /\ map Some PSA = map (option_map p_PSA) (s_rows r) /\ List.length SA = n
  end.
Proof.
  intros s Tmin Tmax n xi k par c Hc. unfold response_spectra_show. destruct (response_spectra s Tmin Tmax n xi k par) as [r|e] eqn:E; [|split; reflexivity]. split; [reflexivity|].
  destruct (proj1 (C22_accepts_iff s Tmin Tmax n xi k par) (ex_intro _ r E)) as (Hk & Hn & HL & He). destruct (response_rows s Tmin Tmax n xi k par r Hc E) as [Er Ln].
  set (t := every k (times s)). set (a := every k (vals s)).
  assert (NE : forall i, nth_error t i = nth_error (times s) (i * k) /\ nth_error a i = nth_error (vals s) (i * k)) by (intros i; split; apply every_nth_error; exact Hk).
  assert (Lta : List.length t = List.length a).
  { destruct (Nat.lt_trichotomy (List.length t) (List.length a)) as [Q|[Q|Q]]; [|exact Q|]; exfalso.
    - apply every_lt in Q; [|exact Hk]. rewrite vals_length, <- (times_length s) in Q. apply (proj2 (every_lt k Hk _ (times s))) in Q. fold t in Q. lia.
    - apply every_lt in Q; [|exact Hk]. rewrite times_length, <- (vals_length s) in Q. apply (proj2 (every_lt k Hk _ (vals s))) in Q. fold a in Q. lia. }
  assert (Lt0 : (0 < List.length t)%nat) by (apply every_lt; [exact Hk|]; rewrite times_length; cbn; lia).
  destruct (rmin1 t) as [lo|] eqn:E1; [|destruct t; [cbn in Lt0; lia|discriminate]]. destruct (rmax1 t) as [hi|] eqn:E2; [|destruct t; [cbn in Lt0; lia|discriminate]].
  assert (PL : forall g, map Some (peak_line g (s_rows r)) = map (option_map g) (s_rows r)) by (intros g; rewrite Er; unfold peak_line; rewrite !map_map; reflexivity).
  assert (LL : forall g, List.length (peak_line g (s_rows r)) = n) by (intros g; unfold peak_line; rewrite map_length, Er, map_length; exact Ln).
  exists lo, hi, t, a, (peak_line p_SA (s_rows r)), (peak_line p_PSA (s_rows r)). cbv zeta.
  split; [|split; [apply rmin1_least, E1|split; [apply rmax1_greatest, E2|split; [exact NE|auto]]]].
  destruct c as [f l]. unfold spectra_figure. change (and_then new_figure ?q (mkcanvas f l)) with (q f (mkcanvas (S f) l)). cbv beta. cbn [cv_figs cv_axes].
  rewrite run_sub. rewrite run_draw by (try reflexivity; exact Lta). rewrite run_ylabel by reflexivity. rewrite E1. change (and_then (lift (Ok lo)) ?q) with (q lo). cbv beta. rewrite E2. change (and_then (lift (Ok hi)) ?q) with (q hi). cbv beta. rewrite run_xlim by reflexivity.
  rewrite run_sub. rewrite run_draw by (try reflexivity; rewrite LL; exact Ln). rewrite run_ylabel by reflexivity. rewrite run_xlim by reflexivity.
  rewrite run_sub. rewrite run_draw by (try reflexivity; rewrite LL; exact Ln). rewrite run_ylabel by reflexivity. rewrite run_xlim by reflexivity.
  unfold done. rewrite <- !app_assoc. reflexivity.
Qed.

Example C125_instance : exists h m h' m', complete h m /\ gm_truncate h m 0 (2/10) false 0 0 = (h', Ok (m', (Z.of_nat 0, Z.of_nat 2))) /\
  (exists u, num_int (sig_at h (m_accel m)) = Ok (sig_at h (m_veloc m), u)) /\ sig_at h' (m_accel m') = [(0, 1); (1/10, 2)].
Proof.
  destruct (fresh_accel [] three) as (h & m & E & Ea & _); [cbn; lia|]. change ([] ++ [three]) with [three] in E. change (List.length (A := signal) []) with 0%nat in E.
  assert (HL : (0 < List.length [three])%nat) by (cbn; lia).
  destruct (C71_constructed_motion _ _ _ _ _ _ HL E) as (a & v & w & A1 & V1 & W1 & (HA & HI) & _ & _ & _ & _ & _ & _ & Ed & En & _).
  pose proof (constructed_complete _ _ _ _ _ _ HL E) as HC.
  assert (D : m_dt m = 1/10) by (rewrite Ed; unfold step_of, sig_at, three; cbn; lra). assert (N : m_npts m = 3%nat) by exact En.
  assert (P0 : forall z x, IZR z <= x < IZR z + 1 -> Int_part x = z).
  { intros z x H. unfold Int_part. rewrite <- (tech_up x (z + 1)); [lia| |]; rewrite plus_IZR; lra. }
  assert (P1 : py_int ((0 - 0) / (1/10)) = 0%Z). { unfold py_int. replace ((0 - 0) / (1/10)) with 0 by lra. rewrite (proj2 (Rleb_true 0 0)) by lra. apply P0. lra. }
  assert (P2 : py_int ((2/10 + 0) / (1/10)) = 2%Z). { unfold py_int. replace ((2/10 + 0) / (1/10)) with 2 by lra. rewrite (proj2 (Rleb_true 0 2)) by lra. apply P0. lra. }
  destruct (fresh_accel h [(0, 1); (1/10, 2)]) as (h' & m' & E' & Ea' & _); [cbn; lia|].
  exists h, m, h', m'. split; [exact HC|]. split; [|split; [|exact Ea']].
  - unfold gm_truncate. rewrite (proj2 (Rltb_false 0 0)) by lra. rewrite (proj2 (Rleb_false (2/10) 0)) by lra. cbn [orb]. cbv zeta. rewrite D, N, Ea, P1, P2. unfold three. cbn [Z.ltb Z.compare Z.of_nat].
    rew_init E'. reflexivity.
  - exists w. rewrite A1, V1, HA. exact HI.
Qed.
