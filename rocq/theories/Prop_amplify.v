(** C26: amplification and deconvolution in the frequency domain. *)
From Coq Require Import Reals List Bool ZArith Lia Lra.
From Coquelicot Require Import Complex.
From Coq Require Import List.
From Verif Require Import Base M_generic M_profile M_vs_profile M_motion P_motion M_interp P_interp M_dft P_dft M_signal M_linear M_simlin P_simlin P_eqlin M_amplify P_unwrap Prop_unwrap P_amplify.
Import ListNotations.
Open Scope R_scope.

(** ** Specification *)

(** Amplitudes and phases given by the last element of the transfer function. *)
Definition polar_of (f : list R) (a : tfarg) (amp ph : list R) : Prop :=
  match a with
  | TFComplex z => length z = length f /\ amp = map Cmod z /\ ph = robust_unwrap (map carg z) PI
  | TFPolar amp' ph' => amp = amp' /\ ph = ph' /\ length amp = length f /\ length ph = length f
  | TFOther => False
  end.

(** A table of the transfer function completed for frequencies from [df] to [fmax]: the
    last amplitude and the mean slope of the phase beyond the last row, the value 1
    below. *)
Definition completed (df fmax : R) (tab tab' : list (R * (R * R))) : Prop :=
  exists pre post, tab' = pre ++ tab ++ post /\
    let '(f, (a, p)) := last tab (0, (0, 0)) in
    ((exists q, In q tab /\ fmax <= fst q) /\ post = [] \/
     (forall q, In q tab -> fst q < fmax) /\ f <> 0 /\ post = [(fmax, (a, p / f * fmax))]) /\
    ((exists q, In q (tab ++ post) /\ fst q <= df) /\ pre = [] \/
     (forall q, In q (tab ++ post) -> df < fst q) /\ pre = [(df, (1, 0))]).

(** The record that is transformed and the table that is used. *)
Definition prepared (extrap : bool) (s : signal) (tab : list (R * (R * R))) (s' : signal) (tab' : list (R * (R * R))) : Prop :=
  (2 <= length s)%nat /\ step_of s <> 0 /\ tab <> [] /\
  if extrap then s' = s /\ completed (df_of s) (fmax_of s) tab tab'
  else tab' = tab /\ exists k, s' = halved k s /\ (2 <= length s')%nat /\ step_of s' <> 0 /\
         (exists q, In q tab /\ fmax_of s' <= fst q) /\
         forall j, (j < k)%nat -> (2 <= length (halved j s))%nat /\ step_of (halved j s) <> 0 /\ forall q, In q tab -> fst q < fmax_of (halved j s).

Definition transformed (taper : bool) (s : signal) (x : list R) : Prop :=
  if taper then taper_Tukey (T1 (vals s)) (1 / 20) = Ok x else x = vals s.

(** [y] is the record with the times of [s'] whose spectrum is that of the record times
    (or divided by) the factors of the transfer function. *)
Definition amplified (s : signal) (f : list R) (a : tfarg) (taper extrap deconv : bool) (s' : signal) (tab' : list (R * (R * R))) (y : signal) : Prop :=
  (exists amp ph, polar_of f a amp ph /\ prepared extrap s (combine f (combine amp ph)) s' tab') /\
  length y = length s' /\ times y = times s' /\
  exists x, transformed taper s' x /\
    forall m, (m < length s')%nat ->
      let H := factor (length s') (df_of s') tab' m in
      (deconv = true -> H <> RtoC 0) /\
      nth m (dft (map RtoC (vals y))) (RtoC 0) =
        (if deconv then Cdiv (nth m (dft (map RtoC x)) (RtoC 0)) H else Cmult (nth m (dft (map RtoC x)) (RtoC 0)) H).

(** ** The model meets it *)
Lemma polar_ok f a amp ph : polar f a = Ok (amp, ph) <-> polar_of f a amp ph.
Proof.
  destruct a as [z|a p|]; cbn [polar polar_of].
  - destruct (Nat.eqb_spec (length f) (length z)) as [E|E].
    + split; [intros H; injection H as <- <-; auto | intros (_ & -> & ->); reflexivity].
    + split; [discriminate | intros (H & _); congruence].
  - destruct (Nat.eqb_spec (length a) (length f)) as [E|E]; [destruct (Nat.eqb_spec (length p) (length f)) as [E'|E']|]; cbn [andb].
    + split; [intros H; injection H as <- <-; auto | intros (-> & -> & _); reflexivity].
    + split; [discriminate | intros (-> & -> & _ & H); congruence].
    + split; [discriminate | intros (-> & -> & H & _); congruence].
  - split; [discriminate | intros []].
Qed.

Lemma polar_lengths f a amp ph : polar_of f a amp ph -> length amp = length f /\ length ph = length f.
Proof.
  destruct a as [z|a p|]; cbn [polar_of].
  - intros (E & -> & ->). rewrite map_length. split; [exact E|]. destruct (C27_unwrapped (map carg z) PI) as [L _]. rewrite L, map_length. exact E.
  - intros (-> & -> & H1 & H2). auto.
  - intros [].
Qed.
Lemma tab_fst (f amp ph : list R) : length amp = length f -> length ph = length f -> map fst (combine f (combine amp ph)) = f.
Proof.
  intros H1 H2. revert amp ph H1 H2. induction f as [|x f IH]; intros [|a amp] [|p ph] H1 H2; try discriminate; [reflexivity|]. cbn [combine map fst]. rewrite IH; auto.
Qed.

Lemma extrapolate_spec df fmax tab : tab <> [] -> exists r, extrapolate df fmax tab = Ok r /\
  (forall tab', r = Some tab' <-> completed df fmax tab tab') /\
  (r = None <-> (forall q, In q tab -> fst q < fmax) /\ fst (last tab (0, (0, 0))) = 0).
Proof.
  intros Ht. assert (Hm : map fst tab <> []) by (destruct tab; [congruence | discriminate]).
  assert (IN : forall (tab : list (R * (R * R))) (P : R -> Prop), (forall y, In y (map fst tab) -> P y) <-> (forall q, In q tab -> P (fst q))).
  { intros t0 P. split; intros H.
    - intros q Hq. apply H, in_map, Hq.
    - intros y Hy. apply in_map_iff in Hy. destruct Hy as (q & <- & Hq). apply H, Hq. }
  assert (NEG : forall (t0 : list (R * (R * R))) m, ~ (forall q, In q t0 -> fst q < m) -> exists q, In q t0 /\ m <= fst q).
  { induction t0 as [|q t0 IH]; intros m H; [exfalso; apply H; intros q []|]. destruct (Rlt_le_dec (fst q) m) as [C|C].
    - destruct (IH m) as (q' & H1 & H2); [intros G; apply H; intros q' [<-|Hq]; [exact C | apply G, Hq]|]. exists q'. split; [right; exact H1 | exact H2].
    - exists q. split; [left; reflexivity | exact C]. }
  assert (NEG' : forall (t0 : list (R * (R * R))) m, ~ (forall q, In q t0 -> m < fst q) -> exists q, In q t0 /\ fst q <= m).
  { induction t0 as [|q t0 IH]; intros m H; [exfalso; apply H; intros q []|]. destruct (Rlt_le_dec m (fst q)) as [C|C].
    - destruct (IH m) as (q' & H1 & H2); [intros G; apply H; intros q' [<-|Hq]; [exact C | apply G, Hq]|]. exists q'. split; [right; exact H1 | exact H2].
    - exists q. split; [left; reflexivity | exact C]. }
  unfold extrapolate. destruct (rmax1_spec (map fst tab) fmax Hm) as (M & EM & HM). rewrite EM. cbn [bind]. rewrite IN in HM.
  unfold completed. destruct (last tab (0, (0, 0))) as [f [a p]] eqn:EL. cbn [fst].
  assert (TAIL : forall tab1 : list (R * (R * R)), tab1 <> [] -> exists lo, rmin1 (map fst tab1) = Ok lo /\ (df < lo <-> forall q, In q tab1 -> df < fst q)).
  { intros tab1 N. destruct (rmin1_spec (map fst tab1) df) as (lo & E & H); [destruct tab1; [congruence | discriminate]|]. exists lo. rewrite IN in H. auto. }
  destruct (Rltb_spec M fmax) as [C|C].
  - pose proof (proj1 HM C) as C'. clear C. rename C' into C. destruct (Reqb_spec f 0) as [->|Hf]; cbn [bind].
    + exists None. split; [reflexivity|]. split; [|tauto]. intros tab'. split; [discriminate|].
      intros (pre & post & _ & [((q & Hq & G) & _)|(_ & G & _)] & _); [specialize (C q Hq); lra | congruence].
    + destruct (TAIL (tab ++ [(fmax, (a, p / f * fmax))])) as (lo & El & Hlo); [destruct tab; discriminate|]. rewrite El. cbn [bind].
      eexists. split; [reflexivity|]. split; [|split; [discriminate | intros [_ G]; congruence]].
      intros tab'. split.
      * intros E. injection E as <-. destruct (Rltb_spec df lo) as [D|D].
        { exists [(df, (1, 0))], [(fmax, (a, p / f * fmax))]. split; [reflexivity|]. split; [right; auto|]. right. split; [apply Hlo, D | reflexivity]. }
        { exists [], [(fmax, (a, p / f * fmax))]. split; [reflexivity|]. split; [right; auto|]. left. split; [apply NEG'; intros G; apply D, Hlo, G | reflexivity]. }
      * intros (pre & post & -> & [((q & Hq & G) & _)|(_ & _ & ->)] & P); [specialize (C q Hq); lra|]. f_equal.
        destruct (Rltb_spec df lo) as [D|D]; destruct P as [[(q & Hq & G) ->]|[G ->]]; try reflexivity.
        { pose proof (proj1 Hlo D q Hq). lra. }
        { exfalso. apply D, Hlo, G. }
  - assert (CE : exists q, In q tab /\ fmax <= fst q) by (apply NEG; intros G; apply C, HM, G). cbn [bind].
    destruct (TAIL tab Ht) as (lo & El & Hlo). rewrite El. cbn [bind].
    eexists. split; [reflexivity|]. split; [|split; [discriminate | intros [G _]; exfalso; apply C, HM, G]].
    intros tab'. split.
    + intros E. injection E as <-. destruct (Rltb_spec df lo) as [D|D].
      { exists [(df, (1, 0))], []. rewrite app_nil_r. split; [reflexivity|]. split; [left; auto|]. right. split; [apply Hlo, D | reflexivity]. }
      { exists [], []. rewrite app_nil_r. split; [reflexivity|]. split; [left; auto|]. left. split; [apply NEG'; intros G; apply D, Hlo, G | reflexivity]. }
    + intros (pre & post & -> & [(_ & ->)|(G & _)] & P); [|exfalso; apply C, HM, G]. rewrite app_nil_r in *. f_equal.
      destruct (Rltb_spec df lo) as [D|D]; destruct P as [[(q & Hq & G) ->]|[G ->]]; try reflexivity.
      { pose proof (proj1 Hlo D q Hq). lra. }
      { exfalso. apply D, Hlo, G. }
Qed.

Lemma completed_ne df fmax tab tab' : tab <> [] -> completed df fmax tab tab' -> tab' <> [].
Proof.
  intros H (pre & post & -> & _) E. apply app_eq_nil in E. destruct E as [_ E]. apply app_eq_nil in E. destruct E as [E _]. congruence.
Qed.

(** Outcome of the preparation. *)
Definition preparation (s : signal) (f : list R) (tab : list (R * (R * R))) (extrap : bool) : res (signal * fgrid * option (list (R * (R * R)))) :=
  let! g := get_freq_interval s in
  if extrap then let! t := extrapolate (fg_df g) (fg_fmax g) tab in Ok (s, g, t)
  else let! hi := rmax1 f in let! (s', g') := downsample (length s) hi s g in Ok (s', g', Some tab).

Lemma amplify_eq s f a taper extrap deconv : amplify_motion s f a taper extrap deconv =
  let! (amp, ph) := polar f a in
  let! r := preparation s f (combine f (combine amp ph)) extrap in
  let '(s, g, tab) := r in
  match tab with
  | None => Ok None
  | Some tab =>
    let! H := tf_double g tab in
    let! x := (if taper then taper_Tukey (T1 (vals s)) (1 / 20) else Ok (vals s)) in
    Ok (match respond deconv (dft (map RtoC x)) H with None => None | Some y => Some (combine (times s) y) end)
  end.
Proof.
  unfold amplify_motion, preparation. destruct (polar f a) as [[amp ph]|e]; [|reflexivity]. cbn [bind].
  destruct (get_freq_interval s) as [g|e]; [|reflexivity]. cbn [bind]. reflexivity.
Qed.

Lemma preparation_ok s f amp ph extrap s' g' tab' : length amp = length f -> length ph = length f ->
  (preparation s f (combine f (combine amp ph)) extrap = Ok (s', g', Some tab') <->
   g' = grid_of s' /\ prepared extrap s (combine f (combine amp ph)) s' tab').
Proof.
  intros L1 L2. set (tab := combine f (combine amp ph)). assert (EF : map fst tab = f) by (apply tab_fst; assumption).
  unfold preparation. rewrite get_freq_interval_eq. unfold prepared.
  destruct (Nat.leb_spec (length s) 1) as [Hn|Hn]; [split; [discriminate | intros (_ & H & _); lia]|].
  destruct (Reqb_spec (step_of s) 0) as [Hs|Hs]; [split; [discriminate | intros (_ & _ & H & _); congruence]|]. cbn [bind].
  assert (TN : tab = [] -> f = []) by (intros E; rewrite <- EF, E; reflexivity).
  destruct extrap.
  - change (fg_df (grid_of s)) with (df_of s). change (fg_fmax (grid_of s)) with (fmax_of s).
    destruct tab as [|q0 tab0] eqn:ET.
    + cbn. split; [discriminate | intros (_ & _ & _ & H & _); congruence].
    + rewrite <- ET in *. assert (Ht : tab <> []) by (rewrite ET; discriminate). destruct (extrapolate_spec (df_of s) (fmax_of s) tab Ht) as (r & E & Hr & _).
      rewrite E. cbn [bind]. split.
      * intros H. injection H as <- <- ->. split; [reflexivity|]. split; [lia|]. split; [exact Hs|]. split; [exact Ht|]. split; [reflexivity|]. apply Hr. reflexivity.
      * intros (-> & _ & _ & _ & -> & H). apply Hr in H. subst r. reflexivity.
  - destruct f as [|f0 f'] eqn:Ef0.
    + cbn. split; [discriminate|]. intros (_ & _ & _ & H & _). exfalso. apply H. reflexivity.
    + rewrite <- Ef0 in *. assert (Hf : f <> []) by (rewrite Ef0; discriminate). assert (Ht : tab <> []) by (intros E; apply Hf, TN, E).
      destruct (rmax1_spec f 0 Hf) as (M & EM & _). rewrite EM. cbn [bind].
      assert (HM : forall m, M < m <-> forall q, In q tab -> fst q < m).
      { intros m. destruct (rmax1_spec f m Hf) as (M' & EM' & H). rewrite EM in EM'. injection EM' as <-. rewrite H, <- EF. split; intros G.
        - intros q Hq. apply G, in_map, Hq.
        - intros y Hy. apply in_map_iff in Hy. destruct Hy as (q & <- & Hq). apply G, Hq. }
      assert (HM' : forall m, m <= M <-> exists q, In q tab /\ m <= fst q).
      { intros m. split.
        - intros G. assert (I : In M f) by (destruct f as [|x f1]; [congruence|]; cbn in EM; injection EM as <-; destruct (fold_Rmax_spec f1 x) as (_ & _ & [->|I]); [left; reflexivity | right; exact I]).
          rewrite <- EF in I. apply in_map_iff in I. destruct I as (q & E & Hq). exists q. split; [exact Hq | lra].
        - intros (q & Hq & G). apply Rnot_lt_le. intros C. rewrite HM in C. specialize (C q Hq). lra. }
      destruct (downsample (length s) M s (grid_of s)) as [[s1 g1]|e] eqn:ED; cbn [bind].
      * assert (A : exists k, s1 = halved k s /\ g1 = grid_of s1 /\ (2 <= length s1)%nat /\ step_of s1 <> 0 /\ fmax_of s1 <= M /\ forall j, (j < k)%nat -> (2 <= length (halved j s))%nat /\ step_of (halved j s) <> 0 /\ M < fmax_of (halved j s)).
        { destruct (downsample_ok M (length s) s s1 g1 ltac:(lia) ED ltac:(lia) Hs) as (k & E1 & E2 & E3 & E4 & E5 & E6).
          exists k. split; [exact E1|]. split; [exact E2|]. split; [exact E3|]. split; [exact E4|]. split; [exact E5|]. exact E6. }
        destruct A as (k & E1 & E2 & E3 & E4 & E5 & E6). split.
        { intros H. injection H as <- <- <-. split; [exact E2|]. split; [lia|]. split; [exact Hs|]. split; [exact Ht|]. split; [reflexivity|].
          exists k. split; [exact E1|]. split; [exact E3|]. split; [exact E4|]. split; [apply HM', E5|]. intros j Hj. destruct (E6 j Hj) as (G1 & G2 & G3). split; [exact G1|]. split; [exact G2|]. apply HM, G3. }
        { intros (-> & _ & _ & _ & -> & k' & -> & G1 & G2 & G3 & G4). apply HM' in G3.
          assert (k = k').
          { destruct (Nat.lt_trichotomy k k') as [C|[C|C]]; auto; exfalso.
            - destruct (G4 k C) as (_ & _ & G). apply HM in G. rewrite <- E1 in G. lra.
            - destruct (E6 k' C) as (_ & _ & G). lra. }
          subst k'. rewrite E2, E1. reflexivity. }
      * split; [discriminate|]. intros (_ & _ & _ & _ & _ & k' & -> & G1 & G2 & G3 & G4). exfalso. apply HM' in G3.
        apply (downsample_err M (length s) s e ltac:(lia) ltac:(lia) Hs) in ED. destruct ED as (k & D1 & D2).
        destruct (Nat.le_gt_cases k' k) as [C|C].
        { destruct (D1 k' C) as (_ & _ & G). lra. }
        { destruct (Nat.eq_dec k' (S k)) as [->|Hne].
          - destruct D2 as [[D2 _]|(_ & D2 & _)]; [lia | congruence].
          - destruct (G4 (S k) ltac:(lia)) as (F1 & F2 & _). destruct D2 as [[D2 _]|(_ & D2 & _)]; [lia | congruence]. }
Qed.

Lemma taper_length v w x : taper_Tukey (T1 v) w = Ok x -> length x = length v.
Proof.
  cbn [taper_Tukey]. intros E. injection E as <-. rewrite map_length, combine_length. unfold tukey.
  destruct (Nat.leb (length v) 1); [rewrite repeat_length; lia|]. destruct (Rleb (w / 2) 0); [rewrite repeat_length; lia|].
  destruct (Rleb 1 (w / 2)); rewrite map_length, seq_length; lia.
Qed.
Lemma taper_total v w : exists x, taper_Tukey (T1 v) w = Ok x.
Proof. eexists. reflexivity. Qed.
Lemma transformed_ok (taper : bool) (s : signal) (x : list R) : (if taper then taper_Tukey (T1 (vals s)) (1 / 20) else Ok (vals s)) = Ok x <-> transformed taper s x.
Proof. destruct taper; cbn [transformed]; [tauto|]. split; [intros E; injection E; auto | intros ->; reflexivity]. Qed.
Lemma transformed_length taper s x : transformed taper s x -> length x = length s.
Proof. destruct taper; cbn [transformed]; [intros E; rewrite (taper_length _ _ _ E); apply vals_length | intros ->; apply vals_length]. Qed.
Lemma prepared_ok extrap s tab s' tab' : prepared extrap s tab s' tab' -> (2 <= length s')%nat /\ step_of s' <> 0 /\ tab' <> [].
Proof.
  intros (H1 & H2 & H3 & H4). destruct extrap.
  - destruct H4 as [-> H4]. split; [exact H1|]. split; [exact H2|]. eapply completed_ne; eauto.
  - destruct H4 as (-> & k & -> & H5 & H6 & _). auto.
Qed.
Lemma RtoC_list_inj x y : map RtoC x = map RtoC y -> x = y.
Proof.
  revert y. induction x as [|a x IH]; intros [|b y] H; try discriminate; [reflexivity|]. cbn in H. injection H. intros E1 E2. f_equal; [exact E2 | apply IH, E1].
Qed.
Lemma dft_inj x y : dft (map RtoC x) = dft (map RtoC y) -> x = y.
Proof. intros E. apply RtoC_list_inj. rewrite <- (idft_dft (map RtoC x)), E. apply idft_dft. Qed.

(** The function returns the record described by the specification, and no other. *)
Theorem C26_result s f a taper extrap deconv y :
  amplify_motion s f a taper extrap deconv = Ok (Some y) <-> exists s' tab', amplified s f a taper extrap deconv s' tab' y.
Proof.
  rewrite amplify_eq. split.
  - destruct (polar f a) as [[amp ph]|e] eqn:EP; [|discriminate]. cbn [bind]. apply polar_ok in EP. destruct (polar_lengths _ _ _ _ EP) as [L1 L2].
    destruct (preparation s f (combine f (combine amp ph)) extrap) as [[[s' g'] tb]|e] eqn:EPr; [|discriminate]. cbn [bind].
    destruct tb as [tab'|]; [|discriminate]. apply preparation_ok in EPr; [|assumption|assumption]. destruct EPr as [-> HP].
    destruct (prepared_ok _ _ _ _ _ HP) as (Hn & Hs & Ht). rewrite tf_double_eq by assumption. cbn [bind].
    destruct (if taper then taper_Tukey (T1 (vals s')) (1 / 20) else Ok (vals s')) as [x|e] eqn:ET; [|discriminate]. cbn [bind]. apply transformed_ok in ET.
    pose proof (transformed_length _ _ _ ET) as Lx.
    destruct (respond deconv (dft (map RtoC x)) (map (factor (length s') (df_of s') tab') (seq 0 (length s')))) as [v|] eqn:ER; [|discriminate].
    intros E. injection E as <-.
    destruct (respond_some _ _ _ _ (eq_trans (eq_trans (map_length _ _) (seq_length _ _)) (eq_sym Lx)) (factor_symmetric _ _ _) ER) as (Lv & HZ & HD).
    assert (Lv' : length v = length s') by lia.
    exists s', tab'. split; [exists amp, ph; auto|]. fold (with_vals s' v). split; [apply with_vals_length, Lv'|]. split; [apply times_with_vals, Lv'|].
    exists x. split; [exact ET|]. intros m Hm. cbv zeta. rewrite vals_with_vals by exact Lv'. rewrite HD. split.
    + intros E. specialize (HZ E m ltac:(lia)). rewrite nth_map_seq in HZ by exact Hm. exact HZ.
    + rewrite (map_nth' (fun q : C * C => applied deconv (fst q) (snd q)) _ _ (RtoC 0, RtoC 0)) by (rewrite combine_length, dft_length, !map_length, seq_length; lia).
      rewrite combine_nth by (rewrite dft_length, !map_length, seq_length; lia). cbn [fst snd]. rewrite nth_map_seq by exact Hm. unfold applied. reflexivity.
  - intros (s' & tab' & (amp & ph & HPo & HP) & Ly & Ty & x & HT & HS). pose proof HPo as EP. apply polar_ok in EP. rewrite EP. cbn [bind].
    destruct (polar_lengths _ _ _ _ HPo) as [L1 L2].
    assert (EPr : preparation s f (combine f (combine amp ph)) extrap = Ok (s', grid_of s', Some tab')) by (apply preparation_ok; auto).
    rewrite EPr. cbn [bind]. destruct (prepared_ok _ _ _ _ _ HP) as (Hn & Hs & Ht). rewrite tf_double_eq by assumption. cbn [bind].
    pose proof (transformed_length _ _ _ HT) as Lx. pose proof HT as HT'. apply transformed_ok in HT'. rewrite HT'. cbn [bind].
    destruct (respond deconv (dft (map RtoC x)) (map (factor (length s') (df_of s') tab') (seq 0 (length s')))) as [v|] eqn:ER.
    + destruct (respond_some _ _ _ _ (eq_trans (eq_trans (map_length _ _) (seq_length _ _)) (eq_sym Lx)) (factor_symmetric _ _ _) ER) as (Lv & HZ & HD).
      assert (Lv' : length v = length s') by lia. fold (with_vals s' v). do 2 f_equal. apply signal_ext.
      * rewrite times_with_vals by exact Lv'. symmetry. exact Ty.
      * rewrite vals_with_vals by exact Lv'. apply dft_inj. rewrite HD. apply list_eq_nth.
        { rewrite map_length, combine_length, !dft_length, !map_length, seq_length, vals_length. lia. }
        { intros m Hm. rewrite map_length, combine_length, dft_length, !map_length, seq_length, Lx, Nat.min_id in Hm. destruct (HS m Hm) as [_ ->].
          rewrite (map_nth' (fun q : C * C => applied deconv (fst q) (snd q)) _ _ (RtoC 0, RtoC 0)) by (rewrite combine_length, dft_length, !map_length, seq_length; lia).
          rewrite combine_nth by (rewrite dft_length, !map_length, seq_length; lia). cbn [fst snd]. rewrite nth_map_seq by exact Hm. unfold applied. reflexivity. }
    + exfalso. apply respond_none in ER. destruct ER as [-> (m & Hm & HZ)]. rewrite map_length, seq_length in Hm. rewrite nth_map_seq in HZ by exact Hm.
      destruct (HS m Hm) as [H _]. apply H; [reflexivity | exact HZ].
Qed.

(** ** When there is no record *)

(** The result is not a finite record exactly when a deconvolution meets a vanishing
    factor, or the table has to be extended from a last row at frequency zero. *)
Theorem C26_not_finite s f a taper extrap deconv :
  amplify_motion s f a taper extrap deconv = Ok None <->
  exists amp ph, polar_of f a amp ph /\
    let tab := combine f (combine amp ph) in
    (deconv = true /\ exists s' tab' m, prepared extrap s tab s' tab' /\ (m < length s')%nat /\ factor (length s') (df_of s') tab' m = RtoC 0) \/
    (extrap = true /\ (2 <= length s)%nat /\ step_of s <> 0 /\ tab <> [] /\ (forall q, In q tab -> fst q < fmax_of s) /\ fst (last tab (0, (0, 0))) = 0).
Proof.
  rewrite amplify_eq. split.
  - destruct (polar f a) as [[amp ph]|e] eqn:EP; [|discriminate]. cbn [bind]. apply polar_ok in EP. destruct (polar_lengths _ _ _ _ EP) as [L1 L2].
    intros H. exists amp, ph. split; [exact EP|]. cbv zeta. set (tab := combine f (combine amp ph)) in *.
    destruct (preparation s f tab extrap) as [[[s' g'] tb]|e] eqn:EPr; [|discriminate]. cbn [bind] in H.
    destruct tb as [tab'|].
    + left. pose proof EPr as HP. apply preparation_ok in HP; [|assumption|assumption]. destruct HP as [-> HP].
      destruct (prepared_ok _ _ _ _ _ HP) as (Hn & Hs & Ht). rewrite tf_double_eq in H by assumption. cbn [bind] in H.
      destruct (if taper then taper_Tukey (T1 (vals s')) (1 / 20) else Ok (vals s')) as [x|e]; [|discriminate]. cbn [bind] in H.
      destruct (respond deconv (dft (map RtoC x)) (map (factor (length s') (df_of s') tab') (seq 0 (length s')))) as [v|] eqn:ER; [discriminate|].
      apply respond_none in ER. destruct ER as [-> (m & Hm & HZ)]. rewrite map_length, seq_length in Hm. rewrite nth_map_seq in HZ by exact Hm.
      split; [reflexivity|]. exists s', tab', m. auto.
    + right. unfold preparation in EPr. rewrite get_freq_interval_eq in EPr. destruct (Nat.leb_spec (length s) 1); [discriminate|].
      destruct (Reqb_spec (step_of s) 0); [discriminate|]. cbn [bind] in EPr. destruct extrap.
      * assert (Ht : tab <> []) by (intros E; rewrite E in EPr; discriminate).
        change (fg_df (grid_of s)) with (df_of s) in EPr. change (fg_fmax (grid_of s)) with (fmax_of s) in EPr.
        destruct (extrapolate_spec (df_of s) (fmax_of s) tab Ht) as (r & E & _ & Hr). rewrite E in EPr. cbn [bind] in EPr. injection EPr as <- <- ->.
        split; [reflexivity|]. split; [lia|]. split; [assumption|]. split; [exact Ht|]. apply Hr. reflexivity.
      * destruct (rmax1 f) as [hi|]; [|discriminate]. cbn [bind] in EPr. destruct (downsample (length s) hi s (grid_of s)) as [[s1 g1]|]; discriminate.
  - intros (amp & ph & HPo & HC). cbv zeta in HC. set (tab := combine f (combine amp ph)) in *. pose proof HPo as EP. apply polar_ok in EP. rewrite EP. cbn [bind]. fold tab.
    destruct (polar_lengths _ _ _ _ HPo) as [L1 L2]. destruct HC as [[-> (s' & tab' & m & HP & Hm & HZ)]|(-> & Hn & Hs & Ht & HL & H0)].
    + assert (EPr : preparation s f tab extrap = Ok (s', grid_of s', Some tab')) by (apply preparation_ok; auto).
      rewrite EPr. cbn [bind]. destruct (prepared_ok _ _ _ _ _ HP) as (Hn & Hs & Ht). rewrite tf_double_eq by assumption. cbn [bind].
      assert (EX : exists x, (if taper then taper_Tukey (T1 (vals s')) (1 / 20) else Ok (vals s')) = Ok x) by (destruct taper; eexists; reflexivity).
      destruct EX as [x ->]. cbn [bind].
      assert (ER : respond true (dft (map RtoC x)) (map (factor (length s') (df_of s') tab') (seq 0 (length s'))) = None).
      { apply respond_none. split; [reflexivity|]. exists m. rewrite map_length, seq_length, nth_map_seq by exact Hm. auto. }
      rewrite ER. reflexivity.
    + unfold preparation. rewrite get_freq_interval_eq. destruct (Nat.leb_spec (length s) 1); [lia|]. destruct (Reqb_spec (step_of s) 0); [congruence|]. cbn [bind].
      change (fg_df (grid_of s)) with (df_of s). change (fg_fmax (grid_of s)) with (fmax_of s).
      destruct (extrapolate_spec (df_of s) (fmax_of s) tab Ht) as (r & E & _ & Hr). rewrite E. cbn [bind].
      assert (r = None) by (apply Hr; auto). subst r. reflexivity.
Qed.

(** Which exception, exactly.  A record that cannot be thinned out far enough raises
    [ValueError]. *)
Definition mismatched (f : list R) (a : tfarg) : Prop :=
  match a with
  | TFComplex z => length z <> length f
  | TFPolar amp ph => length amp <> length f \/ length ph <> length f
  | TFOther => False
  end.
Theorem C26_errors s f a taper extrap deconv e :
  amplify_motion s f a taper extrap deconv = Err e <->
  (a = TFOther /\ e = TypeError) \/
  (mismatched f a /\ e = AssertionError) \/
  (a <> TFOther /\ ~ mismatched f a /\
    (((length s <= 1)%nat /\ e = ValueError) \/
     ((2 <= length s)%nat /\ step_of s = 0 /\ e = ZeroDivisionError) \/
     ((2 <= length s)%nat /\ step_of s <> 0 /\ f = [] /\ e = ValueError) \/
     ((2 <= length s)%nat /\ step_of s <> 0 /\ f <> [] /\ extrap = false /\
       exists k, (forall j, (j <= k)%nat -> (2 <= length (halved j s))%nat /\ step_of (halved j s) <> 0 /\ forall g, In g f -> g < fmax_of (halved j s)) /\
         ((length (halved (S k) s) <= 1)%nat /\ e = ValueError \/ (2 <= length (halved (S k) s))%nat /\ step_of (halved (S k) s) = 0 /\ e = ZeroDivisionError)))).
Proof.
  rewrite amplify_eq.
  assert (PD : (polar f a = Err TypeError /\ a = TFOther) \/ (polar f a = Err AssertionError /\ a <> TFOther /\ mismatched f a) \/
               (exists amp ph, polar f a = Ok (amp, ph) /\ a <> TFOther /\ ~ mismatched f a)).
  { destruct a as [z|x p|]; cbn [polar mismatched].
    - right. destruct (Nat.eqb_spec (length f) (length z)); [right; do 2 eexists; split; [reflexivity|]; split; [discriminate|lia] | left; split; [reflexivity|]; split; [discriminate|lia]].
    - right. destruct (Nat.eqb_spec (length x) (length f)), (Nat.eqb_spec (length p) (length f)); cbn [andb];
        [right; do 2 eexists; split; [reflexivity|]; split; [discriminate|lia] | left; split; [reflexivity|]; split; [discriminate|lia] ..].
    - left. auto. }
  destruct PD as [[-> ->]|[(-> & Ha & Hm)|(amp & ph & EP & Ha & Hm)]].
  - cbn [bind]. split; [intros E; injection E as <-; left; auto|]. intros [[_ ->]|[[[] _]|(H & _)]]; [reflexivity | exfalso; apply H; reflexivity].
  - cbn [bind]. split; [intros E; injection E as <-; right; left; auto|]. intros [[H _]|[[_ ->]|(_ & H & _)]]; [congruence | reflexivity | contradiction].
  - rewrite EP. cbn [bind]. apply polar_ok in EP. destruct (polar_lengths _ _ _ _ EP) as [L1 L2]. set (tab := combine f (combine amp ph)).
    assert (EF : map fst tab = f) by (apply tab_fst; assumption).
    assert (RED : (let! r := preparation s f tab extrap in
                   let '(s, g, tab) := r in
                   match tab with None => Ok None | Some tab =>
                     let! H := tf_double g tab in
                     let! x := (if taper then taper_Tukey (T1 (vals s)) (1 / 20) else Ok (vals s)) in
                     Ok (match respond deconv (dft (map RtoC x)) H with None => None | Some y => Some (combine (times s) y) end) end) = Err e <-> preparation s f tab extrap = Err e).
    { destruct (preparation s f tab extrap) as [[[s' g'] tb]|e'] eqn:EPr; cbn [bind]; [|split; congruence]. split; [|discriminate].
      destruct tb as [tab'|]; [|discriminate]. apply preparation_ok in EPr; [|assumption|assumption]. destruct EPr as [-> HP].
      destruct (prepared_ok _ _ _ _ _ HP) as (Hn & Hs & Ht). rewrite tf_double_eq by assumption. cbn [bind].
      assert (EX : exists x, (if taper then taper_Tukey (T1 (vals s')) (1 / 20) else Ok (vals s')) = Ok x) by (destruct taper; eexists; reflexivity).
      destruct EX as [x ->]. discriminate. }
    rewrite RED. clear RED.
    assert (CUT : forall P : Prop, (preparation s f tab extrap = Err e <-> P) ->
      (preparation s f tab extrap = Err e <-> (a = TFOther /\ e = TypeError) \/ (mismatched f a /\ e = AssertionError) \/ (a <> TFOther /\ ~ mismatched f a /\ P))).
    { intros P HP. rewrite HP. split; [intros H; right; right; auto|]. intros [[H _]|[[H _]|(_ & _ & H)]]; [congruence | contradiction | exact H]. }
    apply CUT. clear CUT. unfold preparation. rewrite get_freq_interval_eq.
    destruct (Nat.leb_spec (length s) 1) as [Hn|Hn]; cbn [bind].
    { split; [intros E; injection E as <-; left; auto|]. intros [[_ ->]|[(H & _)|[(H & _)|(H & _)]]]; [reflexivity | lia | lia | lia]. }
    destruct (Reqb_spec (step_of s) 0) as [Hs|Hs]; cbn [bind].
    { split; [intros E; injection E as <-; right; left; auto|]. intros [[H _]|[(_ & _ & ->)|[(_ & H & _)|(_ & H & _)]]]; [lia | reflexivity | congruence | congruence]. }
    destruct f as [|f0 f'] eqn:Ef0.
    { assert (tab = []) by reflexivity. split.
      - intros E. right. right. left. split; [lia|]. split; [exact Hs|]. split; [reflexivity|]. destruct extrap; cbn in E; congruence.
      - intros [[H0 _]|[(_ & H0 & _)|[(_ & _ & _ & ->)|(_ & _ & H0 & _)]]]; [lia | congruence | destruct extrap; reflexivity | congruence]. }
    rewrite <- Ef0 in *. assert (Hf : f <> []) by (rewrite Ef0; discriminate).
    assert (Ht : tab <> []) by (intros E; apply Hf; rewrite <- EF, E; reflexivity).
    destruct extrap.
    + destruct (extrapolate_spec (fg_df (grid_of s)) (fg_fmax (grid_of s)) tab Ht) as (r & E & _ & _). rewrite E. cbn [bind].
      split; [discriminate|]. intros [[H0 _]|[(_ & H0 & _)|[(_ & _ & H0 & _)|(_ & _ & _ & H0 & _)]]]; [lia | congruence | congruence | discriminate].
    + destruct (rmax1_spec f 0 Hf) as (M & EM & _). rewrite EM. cbn [bind].
      assert (HM : forall m, M < m <-> forall g, In g f -> g < m).
      { intros m. destruct (rmax1_spec f m Hf) as (M' & EM' & H). rewrite EM in EM'. injection EM' as <-. exact H. }
      assert (RED : (let! (s', g') := downsample (length s) M s (grid_of s) in Ok (s', g', Some tab)) = Err e <-> downsample (length s) M s (grid_of s) = Err e).
      { destruct (downsample (length s) M s (grid_of s)) as [[s1 g1]|e']; cbn [bind]; split; congruence. }
      rewrite RED. rewrite downsample_err by (try lia; exact Hs). split.
      * intros (k & K1 & K2). right. right. right. split; [lia|]. split; [exact Hs|]. split; [exact Hf|]. split; [reflexivity|]. exists k. split; [|exact K2].
        intros j Hj. destruct (K1 j Hj) as (G1 & G2 & G3). split; [exact G1|]. split; [exact G2|]. apply HM, G3.
      * intros [[H0 _]|[(_ & H0 & _)|[(_ & _ & H0 & _)|(_ & _ & _ & _ & k & K1 & K2)]]]; [lia | congruence | congruence|].
        exists k. split; [|exact K2]. intros j Hj. destruct (K1 j Hj) as (G1 & G2 & G3). split; [exact G1|]. split; [exact G2|]. apply HM, G3.
Qed.

(** ** Round trips *)
Lemma length_times (s s' : signal) : times s = times s' -> length s = length s'.
Proof. intros E. rewrite <- (times_length s), E. apply times_length. Qed.
Lemma same_grid s s' : times s = times s' -> length s = length s' /\ step_of s = step_of s' /\ df_of s = df_of s' /\ fmax_of s = fmax_of s'.
Proof.
  intros E. pose proof (length_times _ _ E) as L. unfold fmax_of, df_of, step_of. rewrite E, L. auto.
Qed.

(** A record with the times of the record used needs no further preparation. *)
Lemma prepared_again extrap s tab s' tab' y : prepared extrap s tab s' tab' -> times y = times s' -> prepared extrap y tab y tab'.
Proof.
  intros HP HT. destruct (prepared_ok _ _ _ _ _ HP) as (Hn & Hs & _). destruct (same_grid _ _ HT) as (E1 & E2 & E3 & E4).
  destruct HP as (_ & _ & Ht & HP). unfold prepared. rewrite E1, E2. split; [exact Hn|]. split; [exact Hs|]. split; [exact Ht|]. destruct extrap.
  - destruct HP as [-> HP]. split; [reflexivity|]. rewrite E3, E4. exact HP.
  - destruct HP as (-> & k & _ & _ & _ & HQ & _). split; [reflexivity|]. exists O. split; [reflexivity|]. split; [lia|]. split; [congruence|]. split; [rewrite E4; exact HQ|]. intros j Hj. lia.
Qed.

(** Amplifying and then deconvolving (or the other way round) gives back the record that
    was transformed, exactly, when no factor vanishes; with [extrap_tf=True] that is the
    input itself. *)
Theorem C26_round_trip s f a extrap deconv s' tab' y :
  amplified s f a false extrap deconv s' tab' y ->
  (forall m, (m < length s')%nat -> factor (length s') (df_of s') tab' m <> RtoC 0) ->
  amplify_motion s f a false extrap deconv = Ok (Some y) /\
  amplify_motion y f a false extrap (negb deconv) = Ok (Some s') /\
  (extrap = true -> s' = s).
Proof.
  intros HA HZ. split; [apply C26_result; eauto|]. destruct HA as ((amp & ph & HPo & HP) & Ly & Ty & x & HX & HS). cbn [transformed] in HX. subst x. split.
  - apply C26_result. exists y, tab'. split; [exists amp, ph; split; [exact HPo|]; eapply prepared_again; eauto|]. split; [lia|]. split; [congruence|].
    exists (vals y). split; [reflexivity|]. destruct (same_grid _ _ Ty) as (E1 & _ & E3 & _). rewrite E1, E3. intros m Hm. cbv zeta. specialize (HZ m Hm). destruct (HS m Hm) as [_ ->].
    split; [auto|]. destruct deconv; cbn [negb]; field; exact HZ.
  - intros ->. destruct HP as (_ & _ & _ & E & _). exact E.
Qed.
