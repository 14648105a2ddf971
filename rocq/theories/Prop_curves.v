(** Theorems about curve objects and damping fits (C38, C46, C72). *)
From Coq Require Import Reals List Bool ZArith String Lia Lra.
From Verif Require Import Base M_generic M_profile M_vs_profile P_vs_profile M_motion P_motion M_soil P_soil M_interp P_interp M_params P_params M_curves P_curves.
Import ListNotations.
Open Scope R_scope.
Open Scope list_scope.

(** ** C38 construction without interpolation *)
Theorem C38_GGmax_curve : forall h loc su chk, (loc < List.length h)%nat ->
  let s := sig_at h loc in
  let base := su <> SBad /\ (chk = true -> nonneg s) in
  let h' := fst (ggmax_init h loc su None chk) in
  let r := snd (ggmax_init h loc su None chk) in
  (base -> only loc (rescaled (per_cent su) 1 s) h h') /\ (~ base -> h' = h) /\
  (base /\ (chk = true -> Forall (fun p => 0 <= snd p <= 1) s) -> r = Ok (mkcurve loc loc)) /\
  (~ (base /\ (chk = true -> Forall (fun p => 0 <= snd p <= 1) s)) -> r = Err ValueError).
Proof.
  intros h loc su chk Hl s base h' r. destruct (curve_init_plain h loc su chk Hl) as [H1 H2]. unfold h', r, ggmax_init.
  assert (Hb : base -> exists h1, curve_init h loc su None chk = (h1, Ok (mkcurve loc loc)) /\ only loc (rescaled (per_cent su) 1 s) h h1).
  { intros [A B]. apply H1; auto. }
  assert (Hv : forall h1, only loc (rescaled (per_cent su) 1 s) h h1 -> values h1 (mkcurve loc loc) = map snd s).
  { intros h1 (_ & E & _). unfold values. cbn [c_data]. rewrite E. unfold vals, rescaled. rewrite map_map. apply map_ext. intros p. cbn. lra. }
  split; [|split; [|split]].
  - intros B. destruct (Hb B) as (h1 & E & O). rewrite E. destruct (chk && _); exact O.
  - intros B. rewrite H2 by exact B. reflexivity.
  - intros [B C]. destruct (Hb B) as (h1 & E & O). rewrite E, (Hv h1 O). destruct chk; [|reflexivity]. cbn [andb].
    rewrite (proj2 (range_check_false 0 1 (map snd s))); [reflexivity|]. rewrite Forall_map. apply C. reflexivity.
  - intros N. destruct su.
    3:{ rewrite H2; [reflexivity|]. intros [A _]. congruence. }
    all: destruct chk; [|exfalso; apply N; split; [split; [discriminate|discriminate]|discriminate]].
    all: destruct (existsb neg_cell s) eqn:En;
      [rewrite H2; [reflexivity|]; intros [_ B]; apply neg_cell_true in En; apply En, B; reflexivity|].
    all: apply neg_cell_false in En; destruct Hb as (h1 & E & O); [split; [discriminate|auto]|];
      rewrite E, (Hv h1 O); cbn [andb]; destruct (existsb _ _ || existsb _ _) eqn:Er; [reflexivity|];
      exfalso; apply N; split; [split; [discriminate|auto]|intros _; apply (range_check_false 0 1) in Er; rewrite Forall_map in Er; exact Er].
Qed.

Theorem C38_damping_curve : forall h loc su du chk, (loc < List.length h)%nat ->
  let s := sig_at h loc in
  let base := su <> SBad /\ (chk = true -> nonneg s) in
  let inrange := chk = true -> Forall (fun p => 0 <= per_cent du * snd p <= 100) s in
  let h' := fst (damping_init h loc su du None chk) in
  let r := snd (damping_init h loc su du None chk) in
  (* effect on the caller's array *)
  (~ base -> h' = h) /\
  (base -> du = SBad -> only loc (rescaled (per_cent su) 1 s) h h') /\
  (base -> du <> SBad -> only loc (rescaled (per_cent su) (per_cent du) s) h h') /\
  (* outcome *)
  (base -> du <> SBad -> inrange -> r = Ok (mkcurve loc loc)) /\
  (~ (base /\ du <> SBad /\ inrange) -> r = Err ValueError).
Proof.
  intros h loc su du chk Hl s base inrange h' r. destruct (curve_init_plain h loc su chk Hl) as [H1 H2]. unfold h', r.
  assert (Hb : base -> exists h1, curve_init h loc su None chk = (h1, Ok (mkcurve loc loc)) /\ only loc (rescaled (per_cent su) 1 s) h h1).
  { intros [A B]. apply H1; auto. }
  set (h2 := fun h1 => match du with S1 => upd h1 loc (scale1 100) | _ => h1 end).
  assert (H2' : forall h1, du <> SBad -> only loc (rescaled (per_cent su) 1 s) h h1 -> only loc (rescaled (per_cent su) (per_cent du) s) h (h2 h1)).
  { intros h1 Hd O. unfold h2. destruct du; cbn [per_cent]; [|exact O|congruence].
    eapply only_trans; [exact O|]. destruct O as (L & E & _).
    replace (rescaled (per_cent su) 100 s) with (scale1 100 (sig_at h1 loc)); [apply only_upd; lia|].
    rewrite E, scale1_rescaled, rescaled_comp. f_equal; lra. }
  assert (Hv : forall h1, only loc (rescaled (per_cent su) (per_cent du) s) h h1 -> values h1 (mkcurve loc loc) = map (fun p => per_cent du * snd p) s).
  { intros h1 (_ & E & _). unfold values. cbn [c_data]. rewrite E. unfold vals, rescaled. rewrite map_map. reflexivity. }
  assert (Hstep : forall h1, du <> SBad -> curve_init h loc su None chk = (h1, Ok (mkcurve loc loc)) -> only loc (rescaled (per_cent su) 1 s) h h1 ->
    damping_init h loc su du None chk =
      if chk && (existsb (fun v => Rltb 100 v) (map (fun p => per_cent du * snd p) s) || existsb (fun v => Rltb v 0) (map (fun p => per_cent du * snd p) s))
      then (h2 h1, Err ValueError) else (h2 h1, Ok (mkcurve loc loc))).
  { intros h1 Hd E O. specialize (H2' h1 Hd O). rewrite <- (Hv (h2 h1) H2'). unfold h2, damping_init. rewrite E. destruct du; [reflexivity|reflexivity|congruence]. }
  split; [|split; [|split; [|split]]].
  - intros B. unfold damping_init. rewrite H2 by exact B. reflexivity.
  - intros B Hd. destruct (Hb B) as (h1 & E & O). unfold damping_init. rewrite E, Hd. exact O.
  - intros B Hd. destruct (Hb B) as (h1 & E & O). rewrite (Hstep h1 Hd E O). destruct (chk && _); apply H2'; auto.
  - intros B Hd Hr. destruct (Hb B) as (h1 & E & O). rewrite (Hstep h1 Hd E O). destruct chk; [|reflexivity]. cbn [andb].
    rewrite (proj2 (range_check_false 0 100 _)); [reflexivity|]. rewrite Forall_map. apply Hr. reflexivity.
  - intros N. assert (D : base \/ ~ base).
    { destruct (match su with SBad => true | _ => false end) eqn:Es; [right; intros [A _]; destruct su; congruence|].
      assert (Hs : su <> SBad) by (destruct su; congruence). destruct chk; [|left; split; [exact Hs|discriminate]].
      destruct (existsb neg_cell s) eqn:En; [right; intros [_ X]; apply neg_cell_true in En; apply En, X; reflexivity|].
      left. split; [exact Hs|intros _; apply neg_cell_false, En]. }
    destruct D as [B|B]; [|unfold damping_init; rewrite H2 by exact B; reflexivity].
    destruct (Hb B) as (h1 & E & O). destruct (match du with SBad => true | _ => false end) eqn:Ed.
    { unfold damping_init. rewrite E. destruct du; try discriminate. reflexivity. }
    assert (Hd : du <> SBad) by (destruct du; congruence). rewrite (Hstep h1 Hd E O). destruct chk; cbn [andb].
    + destruct (existsb _ _ || existsb _ _) eqn:Er; [reflexivity|]. exfalso. apply N. split; [exact B|]. split; [exact Hd|].
      intros _. apply (range_check_false 0 100) in Er. rewrite Forall_map in Er. exact Er.
    + exfalso. apply N. split; [exact B|]. split; [exact Hd|]. intros X. discriminate X.
Qed.

Theorem C38_stress_curve : forall h loc su tu chk, (loc < List.length h)%nat ->
  let s := sig_at h loc in
  let base := su <> SBad /\ (chk = true -> nonneg s) in
  let h' := fst (stress_init h loc su tu chk) in
  let r := snd (stress_init h loc su tu chk) in
  (~ base -> h' = h /\ r = Err ValueError) /\
  (base -> tu = TBad -> only loc (rescaled (per_cent su) 1 s) h h' /\ r = Err ValueError) /\
  (base -> tu <> TBad -> only loc (rescaled (per_cent su) (to_kPa tu) s) h h' /\ r = Ok (mkcurve loc loc)).
Proof.
  intros h loc su tu chk Hl s base h' r. destruct (curve_init_plain h loc su chk Hl) as [H1 H2]. unfold h', r, stress_init.
  split; [intros B; rewrite H2 by exact B; split; reflexivity|].
  split; intros B Ht; destruct (H1 (proj1 B) (proj2 B)) as (h1 & E & O); rewrite E.
  - rewrite Ht. split; [exact O|reflexivity].
  - assert (X : forall k, only loc (rescaled (per_cent su) k s) h (upd h1 loc (scale1 k))).
    { intros k. eapply only_trans; [exact O|]. destruct O as (L & Es & _).
      replace (rescaled (per_cent su) k s) with (scale1 k (sig_at h1 loc)); [apply only_upd; lia|].
      unfold s. rewrite Es, scale1_rescaled, rescaled_comp. f_equal; lra. }
    destruct tu; [| | | |congruence]; cbn [c_data fst snd to_kPa]; (split; [|reflexivity]); auto.
Qed.

(** Consequence over histories: each construction from the same array with strain
    in unit 1 multiplies its strains by 100 again, also in the curves built before. *)
Theorem C38_repeated_construction : forall n h loc, (loc < List.length h)%nat ->
  let build := fun h => fst (ggmax_init h loc S1 None false) in
  forall c, c_data c = loc ->
  strain (Nat.iter n build h) c = map (fun e => 100 ^ n * e) (strain h c) /\
  values (Nat.iter n build h) c = values h c /\
  (forall l, l <> loc -> sig_at (Nat.iter n build h) l = sig_at h l).
Proof.
  intros n h loc Hl build c Hc.
  assert (X : List.length (Nat.iter n build h) = List.length h /\ sig_at (Nat.iter n build h) loc = rescaled (100 ^ n) 1 (sig_at h loc) /\
              (forall l, l <> loc -> sig_at (Nat.iter n build h) l = sig_at h l)).
  { induction n as [|n IH]; [cbn [pow Nat.iter nat_rect]; rewrite rescaled_1; auto|]. destruct IH as (L & E & O). cbn [Nat.iter nat_rect].
    change (nat_rect (fun _ : nat => sheap) h (fun _ : nat => build) n) with (Nat.iter n build h).
    destruct (C38_GGmax_curve (Nat.iter n build h) loc S1 false ltac:(lia)) as (A & _).
    assert (A' := A (conj (fun e : S1 = SBad => ltac:(discriminate e)) (fun e : false = true => ltac:(discriminate e)))). destruct A' as (L' & E' & O'). fold (build (Nat.iter n build h)) in L', E', O'.
    split; [lia|]. split; [|intros l Hd; rewrite O', O; auto]. rewrite E', E, rescaled_comp. cbn [per_cent pow]. rewrite Rmult_1_l. reflexivity. }
  destruct X as (_ & E & O). split; [|split; [|exact O]].
  - unfold strain. rewrite Hc, E. unfold times, rescaled. rewrite !map_map. reflexivity.
  - unfold values. rewrite Hc, E. unfold vals, rescaled. rewrite !map_map. apply map_ext. intros p. cbn. lra.
Qed.

(** With interpolation, no existing array is ever changed, whatever the outcome. *)
Theorem C38_interpolated_construction_is_pure : forall h loc su du q chk l, (loc < List.length h)%nat -> (l < List.length h)%nat ->
  sig_at (fst (curve_init h loc su (Some q) chk)) l = sig_at h l /\
  sig_at (fst (ggmax_init h loc su (Some q) chk)) l = sig_at h l /\
  sig_at (fst (damping_init h loc su du (Some q) chk)) l = sig_at h l /\
  (forall c, snd (damping_init h loc su du (Some q) chk) = Ok c -> c_raw c = loc /\ c_data c = List.length h).
Proof.
  intros h loc su du [[[lo hi] n] lg] chk l Hl Hl'.
  assert (X : forall h1 r, curve_init h loc su (Some (lo, hi, n, lg)) chk = (h1, r) ->
     (List.length h <= List.length h1)%nat /\ (forall k, (k < List.length h)%nat -> sig_at h1 k = sig_at h k) /\
     forall c, r = Ok c -> c = mkcurve loc (List.length h)).
  { intros h1 r. unfold curve_init. destruct (chk && _); [intros E; injection E as <- <-; repeat split; [lia|intros; congruence]|].
    destruct (interpolate lo hi n (sig_at h loc) lg) as [s|e]; [|intros E; injection E as <- <-; repeat split; [lia|intros; congruence]].
    assert (A : forall k, (k < List.length h)%nat -> sig_at (h ++ [s]) k = sig_at h k) by (intros k Hk; unfold sig_at; apply app_nth1; exact Hk).
    assert (B : (List.length h <= List.length (h ++ [s]))%nat) by (rewrite app_length; lia).
    destruct su; intros E; injection E as <- <-.
    - unfold upd. rewrite set_nth_length. split; [exact B|]. split; [|intros c Ec; congruence].
      intros k Hk. rewrite <- (A k Hk). unfold sig_at. apply set_nth_other. lia.
    - split; [exact B|]. split; [exact A|intros c Ec; congruence].
    - split; [exact B|]. split; [exact A|intros c Ec; congruence]. }
  unfold ggmax_init, damping_init.
  destruct (curve_init h loc su (Some (lo, hi, n, lg)) chk) as [h1 r] eqn:E. specialize (X h1 r eq_refl) as (B & A & C). cbn [fst].
  split; [apply A, Hl'|]. destruct r as [c|e]; [|split; [apply A, Hl'|]; split; [apply A, Hl'|discriminate]].
  specialize (C c eq_refl). subst c. split; [destruct (chk && _); apply A, Hl'|]. cbn [c_data].
  assert (D : sig_at (upd h1 (List.length h) (scale1 100)) l = sig_at h l).
  { rewrite <- (A l Hl'). unfold upd, sig_at. apply set_nth_other. lia. }
  split.
  - destruct du; cbn [fst]; [destruct (chk && _); exact D|destruct (chk && _); apply A, Hl'|apply A, Hl'].
  - intros c. destruct du; cbn [snd]; try discriminate; destruct (chk && _); try discriminate; intros Ec; injection Ec as <-; auto.
Qed.

(** The default call of [Stress_Curve] (strain unit '1', kPa) rewrites the caller's array. *)
Example C38_instance : let h := [[(1, 2); (3, 4)]] : sheap in
  sig_at (fst (stress_init h 0 S1 TkPa true)) 0 = [(100, 2); (300, 4)] /\
  sig_at (fst (damping_init h 0 S1 SBad None true)) 0 = [(100, 2); (300, 4)] /\ snd (damping_init h 0 S1 SBad None true) = Err ValueError.
Proof.
  set (s := [(1, 2); (3, 4)] : signal).
  assert (Hn : nonneg s) by (repeat constructor; cbn; lra).
  assert (Hr : forall h', only 0 (rescaled 100 1 s) ([s] : sheap) h' -> sig_at h' 0 = [(100, 2); (300, 4)]).
  { intros h' (_ & E & _). rewrite E. unfold rescaled, s. cbn [map fst snd]. repeat (f_equal; try lra). }
  destruct (C38_stress_curve ([s] : sheap) 0 S1 TkPa true ltac:(cbn; lia)) as (_ & _ & A).
  destruct (C38_damping_curve ([s] : sheap) 0 S1 SBad true ltac:(cbn; lia)) as (_ & B & _ & _ & C).
  split; [|split].
  - apply Hr. apply A; [split; [discriminate|intros _; exact Hn]|discriminate].
  - apply Hr. apply B; [split; [discriminate|intros _; exact Hn]|reflexivity].
  - apply C. intros (_ & X & _). congruence.
Qed.

(** ** C46 fits *)
Section Fits.
Variable opt : list (R * R) -> list R.

Definition is_fit (fit : fitter) : Prop := fit = fit_HH opt \/ fit = fit_H4 opt.
Definition HH_result (data : list (R * R)) : dict :=
  map (fun ki => (fst ki, Rpower 10 (nth (snd ki) (opt data) 0))) (combine HH_keys (seq 0 9)).
Definition H4_result (data : list (R * R)) : dict :=
  [("gamma_ref"%string, Rpower 10 (nth 0 (opt data) 0)); ("s"%string, Rpower 10 (nth 1 (opt data) 0));
   ("beta"%string, Rpower 10 (nth 2 (opt data) 0)); ("Gmax"%string, 1)].

Lemma fit_shape fit : is_fit fit -> exists result, forall h l, fit h l = (fst (fit_prepare h l), let! d := snd (fit_prepare h l) in Ok (result d)).
Proof.
  intros [E|E]; subst fit; [exists HH_result|exists H4_result]; intros h l; unfold fit_HH, fit_H4; destruct (fit_prepare h l) as [h1 r]; reflexivity.
Qed.

(** One fit: the caller's table loses its small-strain damping. *)
Theorem C46_fit_offsets_caller : forall fit h loc, is_fit fit -> (loc < List.length h)%nat ->
  (nonneg (sig_at h loc) -> sig_at h loc <> [] ->
     exists h' p, fit h loc = (h', Ok p) /\ only loc (offset (sig_at h loc)) h h' /\ first_damping (sig_at h' loc) = 0) /\
  (~ nonneg (sig_at h loc) -> fit h loc = (h, Err ValueError)).
Proof.
  intros fit h loc Hf Hl. destruct (fit_shape fit Hf) as (result & Hr). rewrite Hr. split.
  - intros Hn Hne. destruct (fit_prepare_ok h loc Hl Hn Hne) as (h' & E & O). rewrite E. cbn [fst snd bind].
    exists h', (result (fit_data (sig_at h loc))). split; [reflexivity|]. split; [exact O|].
    rewrite (proj1 (proj2 O)). apply first_offset, Hne.
  - intros Hn. unfold fit_prepare. rewrite (proj2 (neg_cell_true _) Hn). reflexivity.
Qed.

(** A second fit of the same table sees the same data, unless some damping was
    below the first one: then it raises. *)
Theorem C46_refit : forall fit1 fit2 h loc h1 p1, is_fit fit1 -> is_fit fit2 -> (loc < List.length h)%nat -> sig_at h loc <> [] ->
  fit1 h loc = (h1, Ok p1) ->
  (Forall (fun p => first_damping (sig_at h loc) <= snd p) (sig_at h loc) ->
     snd (fit2 h1 loc) = snd (fit2 h loc) /\ sig_at (fst (fit2 h1 loc)) loc = sig_at h1 loc) /\
  (~ Forall (fun p => first_damping (sig_at h loc) <= snd p) (sig_at h loc) -> fit2 h1 loc = (h1, Err ValueError)).
Proof.
  intros fit1 fit2 h loc h1 p1 Hf1 Hf2 Hl Hne E1.
  destruct (C46_fit_offsets_caller fit1 h loc Hf1 Hl) as [A B].
  assert (Hn : nonneg (sig_at h loc)).
  { apply neg_cell_false. destruct (existsb neg_cell (sig_at h loc)) eqn:E; [|reflexivity]. apply neg_cell_true in E. rewrite B in E1 by exact E. discriminate. }
  destruct (A Hn Hne) as (h' & p & E & O & _). assert (h' = h1) by congruence. subst h'.
  destruct (fit_shape fit2 Hf2) as (result & Hr). rewrite !Hr. pose proof (proj1 (proj2 O)) as Eo. split.
  - intros Hmin.
    assert (Hn1 : nonneg (sig_at h1 loc)) by (rewrite Eo; apply nonneg_offset; auto).
    assert (Hne1 : sig_at h1 loc <> []) by (rewrite Eo; destruct (sig_at h loc); [congruence|discriminate]).
    destruct (fit_prepare_ok h loc Hl Hn Hne) as (ha & Ea & Oa).
    destruct (fit_prepare_ok h1 loc ltac:(rewrite (proj1 O); exact Hl) Hn1 Hne1) as (hb & Eb & Ob).
    rewrite Ea, Eb. cbn [fst snd bind]. rewrite Eo, fit_data_offset. split; [reflexivity|].
    rewrite (proj1 (proj2 Ob)), Eo. apply offset_idem.
  - intros Hmin. unfold fit_prepare. rewrite (proj2 (neg_cell_true _)); [reflexivity|]. rewrite Eo. intros X. apply Hmin.
    apply Forall_forall. intros q Hq. unfold nonneg, offset in X. rewrite Forall_map in X.
    pose proof (proj1 (Forall_forall _ _) X q Hq) as Y. cbn in Y. lra.
Qed.

(** Fitted values are positive and complete. *)
Theorem C46_fit_results : forall h loc h' p,
  (fit_HH opt h loc = (h', Ok p) -> keys p = HH_keys /\ Forall (fun kv => 0 < snd kv) p) /\
  (fit_H4 opt h loc = (h', Ok p) -> keys p = MKZ_keys /\ Forall (fun kv => 0 < snd kv) p /\ dget "Gmax" p = Some 1).
Proof.
  intros h loc h' p. split; intros E.
  - unfold fit_HH in E. destruct (fit_prepare h loc) as [h1 [d|e]]; cbn [bind] in E; [|discriminate]. injection E as _ <-.
    split; [reflexivity|]. repeat (constructor; [apply exp_pos|]). constructor.
  - unfold fit_H4 in E. destruct (fit_prepare h loc) as [h1 [d|e]]; cbn [bind] in E; [|discriminate]. injection E as _ <-.
    split; [reflexivity|]. split; [|reflexivity]. repeat (constructor; [cbn [snd]; try apply exp_pos; lra|]). constructor.
Qed.

(** Serial and parallel fitting of all layers give the same parameters when the
    first damping of every table is its smallest; the parallel run leaves every
    array unchanged, the serial one offsets each fitted array (once). *)
Definition fit_ready (s : signal) : Prop := s <> [] /\ nonneg s /\ Forall (fun p => first_damping s <= snd p) s.

Lemma serial_core fit result : (forall h l, fit h l = (fst (fit_prepare h l), let! d := snd (fit_prepare h l) in Ok (result d))) ->
  forall locs h0 h, (forall l, In l locs -> (l < List.length h0)%nat /\ fit_ready (sig_at h0 l)) ->
  List.length h = List.length h0 -> (forall l, sig_at h l = sig_at h0 l \/ sig_at h l = offset (sig_at h0 l)) ->
  exists h', fit_serial fit h locs = (h', Ok (map (fun l => result (fit_data (sig_at h0 l))) locs)) /\
    List.length h' = List.length h0 /\
    (forall l, In l locs -> sig_at h' l = offset (sig_at h0 l)) /\ (forall l, ~ In l locs -> sig_at h' l = sig_at h l).
Proof.
  intros Hr locs. induction locs as [|l locs IH]; intros h0 h Hrd HL Hh.
  - exists h. cbn. repeat split; auto. intros l [].
  - destruct (Hrd l (or_introl eq_refl)) as [Hl (Hne & Hn & Hmin)]. cbn [fit_serial].
    assert (Hn1 : nonneg (sig_at h l) /\ sig_at h l <> [] /\ fit_data (sig_at h l) = fit_data (sig_at h0 l) /\ offset (sig_at h l) = offset (sig_at h0 l)).
    { destruct (Hh l) as [->| ->]; [auto|]. split; [apply nonneg_offset; auto|]. split; [destruct (sig_at h0 l); [congruence|discriminate]|].
      split; [apply fit_data_offset|apply offset_idem]. }
    destruct Hn1 as (N1 & N2 & N3 & N4). destruct (fit_prepare_ok h l ltac:(lia) N1 N2) as (h1 & E1 & O1).
    rewrite Hr, E1. cbn [fst snd bind]. rewrite N3. rewrite N4 in O1. destruct O1 as (L1 & S1 & F1).
    assert (Hh1 : forall k, sig_at h1 k = sig_at h0 k \/ sig_at h1 k = offset (sig_at h0 k)).
    { intros k. destruct (Nat.eq_dec k l) as [->|Hk]; [right; exact S1|]. rewrite F1 by exact Hk. apply Hh. }
    destruct (IH h0 h1) as (h2 & E2 & L2 & A2 & B2); [intros k Hk; apply Hrd; right; exact Hk|lia|exact Hh1|].
    rewrite E2. exists h2. split; [reflexivity|]. split; [exact L2|]. split.
    + intros k Hk. destruct (in_dec Nat.eq_dec k locs) as [Hi|Hi]; [apply A2, Hi|]. destruct Hk as [<-|Hk]; [|contradiction].
      rewrite B2 by exact Hi. exact S1.
    + intros k Hk. rewrite B2 by (intros X; apply Hk; right; exact X). apply F1. intros ->. apply Hk. left. reflexivity.
Qed.

Theorem C46_serial_parallel_agree : forall fit h locs, is_fit fit ->
  (forall l, In l locs -> (l < List.length h)%nat /\ fit_ready (sig_at h l)) ->
  exists ps h', fit_all fit true h locs = (h, Ok ps) /\ fit_all fit false h locs = (h', Ok ps) /\
    Forall2 (fun l p => snd (fit h l) = Ok p) locs ps /\
    (forall l, In l locs -> sig_at h' l = offset (sig_at h l)) /\ (forall l, ~ In l locs -> sig_at h' l = sig_at h l).
Proof.
  intros fit h locs Hf Hrd. destruct (fit_shape fit Hf) as (result & Hr).
  destruct (serial_core fit result Hr locs h h Hrd eq_refl (fun l => or_introl eq_refl)) as (h' & E & _ & A & B).
  exists (map (fun l => result (fit_data (sig_at h l))) locs), h'. unfold fit_all.
  replace (existsb (fun l => existsb neg_cell (sig_at h l)) locs) with false.
  2:{ symmetry. apply not_true_iff_false. intros X. apply existsb_exists in X as (l & Hl & X). destruct (Hrd l Hl) as [_ (_ & Hn & _)]. apply neg_cell_true in X. contradiction. }
  assert (X : forall l, In l locs -> snd (fit h l) = Ok (result (fit_data (sig_at h l)))).
  { intros l Hi. destruct (Hrd l Hi) as [Hl (Hne & Hn & _)]. destruct (fit_prepare_ok h l Hl Hn Hne) as (h1 & E1 & _). rewrite Hr, E1. reflexivity. }
  split; [|split; [exact E|split; [|split; [exact A|exact B]]]].
  - f_equal. apply (map_res_ok _ (fun l => result (fit_data (sig_at h l)))). exact X.
  - clear -X. induction locs as [|l locs IH]; constructor; [apply X; left; reflexivity|]. apply IH. intros k Hk. apply X. right. exact Hk.
Qed.

(** Without that condition the two modes can differ (same array used for two layers). *)
Theorem C46_serial_parallel_differ_refuted : exists h locs,
  (exists ps, fit_all (fit_H4 opt) true h locs = (h, Ok ps)) /\ snd (fit_all (fit_H4 opt) false h locs) = Err ValueError.
Proof.
  set (s := [(1, 5); (2, 3)] : signal). exists ([s] : sheap), [0%nat; 0%nat].
  assert (Hn : nonneg s) by (repeat constructor; cbn; lra).
  assert (Hc : existsb (fun l => existsb neg_cell (sig_at [s] l)) [0; 0]%nat = false).
  { cbn [existsb]. change (sig_at [s] 0) with s. rewrite (proj2 (neg_cell_false s) Hn). reflexivity. }
  unfold fit_all. rewrite Hc.
  destruct (fit_prepare_ok ([s] : sheap) 0 ltac:(cbn; lia) Hn ltac:(discriminate)) as (h1 & E1 & O1).
  assert (Ef : fit_H4 opt [s] 0 = (h1, Ok (H4_result (fit_data s)))) by (unfold fit_H4; rewrite E1; reflexivity).
  split.
  - exists [H4_result (fit_data s); H4_result (fit_data s)]. cbn [map_res]. rewrite Ef. reflexivity.
  - cbn [fit_serial]. rewrite Ef.
    assert (E2 : fit_H4 opt h1 0 = (h1, Err ValueError)).
    { destruct (C46_refit (fit_H4 opt) (fit_H4 opt) ([s] : sheap) 0 h1 _ (or_intror eq_refl) (or_intror eq_refl) ltac:(cbn; lia) ltac:(discriminate) Ef) as [_ B].
      apply B. change (sig_at [s] 0) with s. intros X. apply Forall_inv_tail, Forall_inv in X. cbn in X. lra. }
    rewrite E2. reflexivity.
Qed.
End Fits.

(** A damping curve built with interpolation from strains in unit 1 is fitted on
    the raw table, whose strains are then taken to be in percent (finding). *)
Theorem C46_interpolated_unit_mismatch : forall opt h loc q h1 c h2 p,
  (loc < List.length h)%nat -> sig_at h loc <> [] ->
  damping_init h loc S1 SPct (Some q) true = (h1, Ok c) -> fit_HH opt h1 (c_raw c) = (h2, Ok p) ->
  p = HH_result opt (fit_data (sig_at h loc)).
Proof.
  intros opt h loc q h1 c h2 p Hl Hne E Ef.
  destruct (C38_interpolated_construction_is_pure h loc S1 SPct q true loc Hl Hl) as (_ & _ & A & B).
  rewrite E in A, B. cbn [fst snd] in A, B. destruct (B c eq_refl) as [Hraw _]. rewrite Hraw in Ef.
  assert (Hl1 : (loc < List.length h1)%nat).
  { destruct (Nat.lt_ge_cases loc (List.length h1)) as [|X]; [assumption|]. exfalso. apply Hne. rewrite <- A. unfold sig_at. apply nth_overflow. exact X. }
  destruct (C46_fit_offsets_caller opt (fit_HH opt) h1 loc (or_introl eq_refl) Hl1) as [_ C].
  assert (Hn : nonneg (sig_at h1 loc)).
  { apply neg_cell_false. destruct (existsb neg_cell (sig_at h1 loc)) eqn:En; [|reflexivity]. apply neg_cell_true in En. rewrite C in Ef by exact En. discriminate. }
  destruct (fit_prepare_ok h1 loc Hl1 Hn ltac:(rewrite A; exact Hne)) as (h1' & E1 & _).
  unfold fit_HH in Ef. rewrite E1 in Ef. cbn [bind] in Ef. injection Ef as _ <-. rewrite A. reflexivity.
Qed.

Example C46_instance : let h := [[(1, 1); (2, 3)]] : sheap in
  nonneg (sig_at h 0) /\ fit_ready (sig_at h 0) /\ offset (sig_at h 0) = [(1, 0); (2, 2)].
Proof.
  cbn. split; [repeat constructor; cbn; lra|]. split.
  - split; [discriminate|]. split; repeat constructor; cbn; lra.
  - unfold offset, sig_at. cbn. repeat (f_equal; try lra).
Qed.

(** ** C72 interpolated curves *)
Theorem C72_interpolation : forall lo hi n ref lg, (2 <= n)%nat -> lo < hi -> (lg = true -> 0 < lo) -> ref <> [] -> incr ref ->
  exists s, interpolate lo hi n ref lg = Ok s /\ List.length s = n /\
    fst (nth 0 s (0, 0)) = lo /\ fst (nth (n - 1) s (0, 0)) = hi /\ incr s /\
    (forall k, (k < n)%nat -> pl_value ref (fst (nth k s (0, 0))) (snd (nth k s (0, 0)))) /\
    (forall a b, Forall (fun p => a <= snd p <= b) ref -> Forall (fun p => a <= snd p <= b) s) /\
    (ydecr ref -> ydecr s).
Proof.
  intros lo hi n ref lg Hn Hlh Hlg Hne Hinc. unfold interpolate.
  set (xs := if lg then logspace (log10 lo) (log10 hi) n else linspace lo hi n).
  assert (Lx : List.length xs = n).
  { unfold xs, logspace. destruct lg; [rewrite map_length|]; apply linspace_length. }
  assert (Hn1 : 0 < INR (n - 1)) by (apply lt_0_INR; lia).
  assert (Hlog : forall x, 0 < x -> Rpower 10 (log10 x) = x).
  { intros x Hx. unfold log10, Rpower. replace (ln x / ln 10 * ln 10) with (ln x) by (field; pose proof ln10_pos; lra). apply exp_ln, Hx. }
  assert (Hx : nth 0 xs 0 = lo /\ nth (n - 1) xs 0 = hi /\ forall i j, (i < j)%nat -> (j < n)%nat -> nth i xs 0 < nth j xs 0).
  { unfold xs. destruct lg.
    - specialize (Hlg eq_refl). unfold logspace.
      assert (Hnth : forall k, (k < n)%nat -> nth k (map (fun e => Rpower 10 e) (linspace (log10 lo) (log10 hi) n)) 0 = Rpower 10 (log10 lo + INR k * ((log10 hi - log10 lo) / INR (n - 1)))).
      { intros k Hk. rewrite (nth_indep _ 0 (Rpower 10 0)) by (rewrite map_length, linspace_length; exact Hk).
        rewrite (map_nth (fun e => Rpower 10 e)), linspace_nth' by lia. reflexivity. }
      split; [rewrite Hnth by lia; cbn [INR]; rewrite Rmult_0_l, Rplus_0_r; apply Hlog; lra|].
      split; [rewrite Hnth by lia; replace (log10 lo + INR (n - 1) * ((log10 hi - log10 lo) / INR (n - 1))) with (log10 hi) by (field; lra); apply Hlog; lra|].
      intros i j Hij Hj. rewrite !Hnth by lia. apply Rpower_lt; [lra|]. apply Rplus_lt_compat_l, Rmult_lt_compat_r; [|apply lt_INR, Hij].
      apply Rdiv_lt_0_compat; [|exact Hn1]. assert (log10 lo < log10 hi); [|lra].
      unfold log10. apply Rmult_lt_compat_r; [apply Rinv_0_lt_compat, ln10_pos|]. apply ln_increasing; lra.
    - split; [rewrite linspace_nth' by lia; cbn [INR]; lra|].
      split; [rewrite linspace_nth' by lia; field; lra|].
      intros i j Hij Hj. rewrite !linspace_nth' by lia. apply Rplus_lt_compat_l, Rmult_lt_compat_r; [|apply lt_INR, Hij].
      apply Rdiv_lt_0_compat; [lra|exact Hn1]. }
  destruct Hx as (X0 & Xn & Xi).
  destruct (np_interp_ok ref xs Hne) as (ys & Ey & Ly & Hy). rewrite Ey. cbn [bind].
  exists (combine xs ys).
  assert (Hc : forall k, nth k (combine xs ys) (0, 0) = (nth k xs 0, nth k ys 0)) by (intros k; apply nth_combine0; lia).
  assert (Lc : List.length (combine xs ys) = n) by (rewrite combine_length; lia).
  assert (Hpl : forall k, (k < n)%nat -> pl_value ref (nth k xs 0) (nth k ys 0)).
  { intros k Hk. destruct (interp1_spec ref (nth k xs 0) Hinc Hne) as (y & E & P). rewrite Hy in E by lia. injection E as ->. exact P. }
  split; [reflexivity|]. split; [exact Lc|]. rewrite !Hc. cbn [fst]. split; [exact X0|]. split; [exact Xn|].
  split; [intros k Hk; rewrite !Hc; cbn [fst]; apply Xi; lia|].
  split; [intros k Hk; rewrite Hc; apply Hpl, Hk|]. split.
  - intros a b HF. apply Forall_forall. intros p Hp. apply (In_nth _ _ (0, 0)) in Hp as (k & Hk & <-). rewrite Hc. cbn [snd].
    eapply pl_bounds; [apply Hpl; lia|exact HF].
  - intros Hd k Hk. rewrite !Hc. cbn [snd]. rewrite Lc in Hk. eapply (interp1_decr ref (nth k xs 0) (nth (S k) xs 0)); eauto.
    + apply Rlt_le, Xi; lia.
    + apply Hy. lia.
    + apply Hy. lia.
Qed.

(** The sample values themselves are reproduced. *)
Theorem C72_exact_at_samples : forall ref k y, incr ref -> (k < List.length ref)%nat ->
  interp1 ref (fst (nth k ref (0, 0))) = Ok y -> y = snd (nth k ref (0, 0)).
Proof.
  intros ref k y Hi Hk E. destruct (interp1_spec ref (fst (nth k ref (0, 0))) Hi) as (y' & E' & P).
  { destruct ref; [cbn in Hk; lia|discriminate]. }
  rewrite E in E'. injection E' as <-. eapply pl_at_node; eauto.
Qed.

Theorem C72_empty_reference : forall lo hi n lg, interpolate lo hi n [] lg = Err ValueError.
Proof. intros. unfold interpolate. destruct lg; reflexivity. Qed.

Example C72_instance : incr [(1, 10); (2, 20)] /\ interp1 [(1, 10); (2, 20)] (3/2) = Ok 15.
Proof.
  split; [intros [|k] Hk; cbn in *; [lra|lia]|]. cbn. rdec. f_equal. lra.
Qed.
