(** C95: which samples, periods and frequencies enter the goodness-of-fit scores
    (helper_gof_scores.py:62-250, 300-487, 589-781). *)
From Coq Require Import Reals List Bool ZArith Lia Lra.
From Verif Require Import Base M_generic M_motion P_motion M_gof P_gof Prop_gof.
Import ListNotations.
Open Scope R_scope.

(** ** specification *)

(** Scores of the pairs of values, one by one. *)
Definition pair_scores (erf : R -> R) (l : list (R * R)) : list R := map (fun p => S_float erf (fst p) (snd p)) l.
Definition average (l : list R) : R := rsum l / INR (length l).
(** The values belonging to the grid points in [a, b]. *)
Definition within (a b : R) (grid v : list R) : list R :=
  map snd (filter (fun p => Rleb a (fst p) && Rleb (fst p) b) (combine grid v)).
Fixpoint incr (l : list R) : Prop :=
  match l with x :: (y :: _) as t => x < y /\ incr t | _ => True end.

(** ** lemmas *)
Lemma trim_middle (a x b : signal) : length a = 14%nat -> length b = 15%nat -> trim (a ++ x ++ b) = x.
Proof.
  intros Ha Hb. unfold trim, pyslice, slice. rewrite !app_length, Ha, Hb.
  assert (E1 : clamp_index 14 (14 + (length x + 15)) = 14%nat) by (unfold clamp_index; repeat match goal with |- context [if ?c then _ else _] => destruct c eqn:? end; lia).
  assert (E2 : clamp_index (-15) (14 + (length x + 15)) = (14 + length x)%nat) by (unfold clamp_index; repeat match goal with |- context [if ?c then _ else _] => destruct c eqn:? end; lia).
  rewrite E1, E2. rewrite skipn_app, Ha, (skipn_all2 a) by lia. replace (14 - 14)%nat with 0%nat by lia. cbn [skipn app].
  rewrite firstn_app. replace (14 + length x - 14)%nat with (length x) by lia. rewrite firstn_all, Nat.sub_diag. cbn [firstn]. apply app_nil_r.
Qed.
Lemma trim_short (s : signal) : (length s <= 29)%nat -> trim s = [].
Proof.
  intros H. unfold trim, pyslice, slice. apply length_zero_iff_nil. rewrite firstn_length, skipn_length.
  unfold clamp_index; repeat match goal with |- context [if ?c then _ else _] => destruct c eqn:? end; lia.
Qed.

Lemma incr_nth l : incr l -> forall i j, (i < j)%nat -> (j < length l)%nat -> nth i l 0 < nth j l 0.
Proof.
  induction l as [|x l IH]; intros H i j Hij Hj; [cbn in Hj; lia|]. destruct l as [|y l]; [cbn in Hj; lia|]. destruct H as [Hxy H].
  destruct j as [|j]; [lia|]. destruct i as [|i].
  - destruct j as [|j]; [exact Hxy|]. change (x < nth (S j) (y :: l) 0). apply Rlt_trans with y; [exact Hxy|]. apply (IH H 0%nat (S j)); [lia|cbn in *; lia].
  - apply (IH H); [lia|cbn in *; lia].
Qed.

Lemma first_ge_spec a l : forall i, (exists x, In x l /\ a <= x) ->
  exists k, first_ge a l i = Ok (i + k)%nat /\ (k < length l)%nat /\ a <= nth k l 0 /\ forall j, (j < k)%nat -> nth j l 0 < a.
Proof.
  induction l as [|x l IH]; intros i (z & Hz & Ha); [destruct Hz|]. cbn [first_ge]. destruct (Rleb_spec a x) as [L|L].
  - exists 0%nat. rewrite Nat.add_0_r. repeat split; [cbn; lia|exact L|lia].
  - destruct Hz as [<-|Hz]; [lra|]. destruct (IH (S i)) as (k & E & Hk & Hn & Hlt); [exists z; auto|]. exists (S k).
    rewrite E. repeat split; [f_equal; lia|cbn; lia|exact Hn|]. intros [|j] Hj; [cbn; lra|]. apply (Hlt j). lia.
Qed.
Lemma last_le_spec a l : forall i acc,
  match last_le a l i acc with
  | Ok k => (acc = Some k /\ forall j, (j < length l)%nat -> a < nth j l 0) \/
            (exists k', k = (i + k')%nat /\ (k' < length l)%nat /\ nth k' l 0 <= a /\ forall j, (k' < j)%nat -> (j < length l)%nat -> a < nth j l 0)
  | Err _ => acc = None /\ forall j, (j < length l)%nat -> a < nth j l 0
  end.
Proof.
  induction l as [|x l IH]; intros i acc; cbn [last_le].
  - destruct acc; [left|]; split; auto; intros j Hj; cbn in Hj; lia.
  - specialize (IH (S i) (if Rleb x a then Some i else acc)). destruct (last_le _ _ _ _) as [k|e].
    + destruct IH as [(E & H)|(k' & -> & Hk & Hn & H)].
      * destruct (Rleb_spec x a) as [L|L].
        -- injection E as <-. right. exists 0%nat. repeat split; [lia|cbn; lia|exact L|]. intros [|j] Hj Hl; [lia|]. apply (H j). cbn in Hl. lia.
        -- left. split; [exact E|]. intros [|j] Hj; [cbn; lra|]. apply (H j). cbn in Hj. lia.
      * right. exists (S k'). repeat split; [lia|cbn; lia|exact Hn|]. intros [|j] Hj Hl; [lia|]. apply (H j); [lia|cbn in Hl; lia].
    + destruct IH as [E H]. destruct (Rleb_spec x a) as [L|L]; [discriminate|]. split; [exact E|].
      intros [|j] Hj; [cbn; lra|]. apply (H j). cbn in Hj. lia.
Qed.

(** A filter that keeps exactly the indices from i to k is a slice. *)
Lemma filter_slice {A} (d : A) (P : A -> bool) (l : list A) : forall i k,
  (forall j, (j < length l)%nat -> P (nth j l d) = Nat.leb i j && Nat.ltb j k) -> filter P l = slice i k l.
Proof.
  unfold slice. induction l as [|x l IH]; intros i k H.
  - cbn [filter]. rewrite skipn_nil, firstn_nil. reflexivity.
  - pose proof (H 0%nat ltac:(cbn; lia)) as H0. cbn [nth] in H0. cbn [filter].
    assert (Hs : forall j, (j < length l)%nat -> P (nth j l d) = Nat.leb (pred i) j && Nat.ltb j (pred k)).
    { intros j Hj. specialize (H (S j) ltac:(cbn; lia)). cbn [nth] in H. rewrite H.
      destruct (Nat.leb_spec i (S j)), (Nat.leb_spec (pred i) j), (Nat.ltb_spec (S j) k), (Nat.ltb_spec j (pred k)); try reflexivity; lia. }
    specialize (IH _ _ Hs). rewrite H0, IH. destruct i as [|i].
    + destruct k as [|k]; cbn; [reflexivity|]. rewrite Nat.sub_0_r. reflexivity.
    + destruct k as [|k]; cbn; reflexivity.
Qed.

Lemma slice_map {A B} (f : A -> B) i k l : slice i k (map f l) = map f (slice i k l).
Proof. unfold slice. rewrite skipn_map, firstn_map. reflexivity. Qed.
Lemma snd_combine {A B} (l : list A) : forall v : list B, length l = length v -> map snd (combine l v) = v.
Proof. induction l as [|x l IH]; intros [|y v] H; try discriminate; cbn; [reflexivity|]. f_equal. apply IH. cbn in H. lia. Qed.
Lemma slice_within a b (grid v : list R) i k : incr grid -> length grid = length v ->
  (forall j, (j < length grid)%nat -> Rleb a (nth j grid 0) && Rleb (nth j grid 0) b = Nat.leb i j && Nat.ltb j k) ->
  slice i k v = within a b grid v.
Proof.
  intros Hi HL H. unfold within. rewrite (filter_slice (0, 0) _ _ i k).
  - rewrite <- slice_map, snd_combine by exact HL. reflexivity.
  - intros j Hj. rewrite combine_nth by exact HL. cbn [fst]. apply H. rewrite combine_length in Hj. lia.
Qed.

Lemma window a b grid : incr grid -> (exists x, In x grid /\ a <= x) -> (exists x, In x grid /\ x <= b) ->
  exists i k, first_ge a grid 0 = Ok i /\ last_le b grid 0 None = Ok k /\
    forall j, (j < length grid)%nat -> Rleb a (nth j grid 0) && Rleb (nth j grid 0) b = Nat.leb i j && Nat.ltb j (k + 1).
Proof.
  intros Hi Ha Hb. destruct (first_ge_spec a grid 0 Ha) as (i & Ei & Hil & Hia & Hib). exists i.
  pose proof (last_le_spec b grid 0 None) as HL. destruct (last_le b grid 0 None) as [k|e].
  - exists k. split; [exact Ei|]. split; [reflexivity|]. destruct HL as [(? & _)|(k' & -> & Hk & Hkb & Hka)]; [discriminate|]. cbn [Nat.add] in *.
    intros j Hj. f_equal.
    + destruct (Nat.leb_spec i j) as [L|L].
      * apply Rleb_true. destruct (Nat.eq_dec i j) as [->|N]; [exact Hia|]. pose proof (incr_nth grid Hi i j ltac:(lia) Hj). lra.
      * apply Rleb_false. apply Hib, L.
    + destruct (Nat.ltb_spec j (k' + 1)) as [L|L].
      * apply Rleb_true. destruct (Nat.eq_dec j k') as [->|N]; [exact Hkb|]. pose proof (incr_nth grid Hi j k' ltac:(lia) Hk). lra.
      * apply Rleb_false. apply Hka; [lia|exact Hj].
  - exfalso. destruct HL as [_ H]. destruct Hb as (x & Hx & Hxb). destruct (In_nth grid x 0 Hx) as (j & Hj & <-). specialize (H j Hj). lra.
Qed.

Lemma nsum_fin l : nsum (map Fin l) = Fin (rsum l).
Proof. induction l as [|x l IH]; cbn [map nsum]; [reflexivity|]. rewrite IH. reflexivity. Qed.
Lemma nmean_fin l : l <> [] -> nmean (map Fin l) = Fin (average l).
Proof. intros H. unfold nmean. destruct l as [|x l]; [congruence|]. rewrite nsum_fin, map_length. reflexivity. Qed.
Lemma S_array_fin erf m s : length m = length s -> snd (S_array erf (map Fin m) (map Fin s)) = Ok (map Fin (pair_scores erf (combine m s))).
Proof.
  intros HL. destruct (C50_arrays erf m s HL) as (l & E & Hl & Hn & _). rewrite E. cbn [snd]. do 2 f_equal. apply (nth_ext _ _ 0 0).
  - unfold pair_scores. rewrite map_length, combine_length. lia.
  - intros k Hk. rewrite Hn by lia. unfold pair_scores. rewrite (nth_map_d _ (0, 0)) by (rewrite combine_length; lia). rewrite combine_nth by exact HL. reflexivity.
Qed.

(** ** theorems *)

(** Scores 1-4 and 5-7 are those of the records without their first 14 and last
    15 samples: everything is computed from what is left, and from nothing else. *)
Theorem C95_ends_dropped : forall erf bl hp bp wav a x b a' y b' f F baseline,
  length a = 14%nat -> length b = 15%nat -> length a' = 14%nat -> length b' = 15%nat ->
  (forall c d c' d', length c = 14%nat -> length d = 15%nat -> length c' = 14%nat -> length d' = 15%nat ->
     d_1234 erf bl hp bp (c ++ x ++ d) (c' ++ y ++ d') f F baseline = d_1234 erf bl hp bp (a ++ x ++ b) (a' ++ y ++ b') f F baseline /\
     d_567 erf bl hp bp wav (c ++ x ++ d) (c' ++ y ++ d') f F baseline = d_567 erf bl hp bp wav (a ++ x ++ b) (a' ++ y ++ b') f F baseline).
Proof.
  intros erf bl hp bp wav a x b a' y b' f F baseline Ha Hb Ha' Hb' c d c' d' Hc Hd Hc' Hd'.
  unfold d_1234, d_567, rms_of. rewrite !trim_middle by assumption. split; reflexivity.
Qed.
(** Without corrections the acceleration score compares the root mean squares of
    exactly those samples. *)
Theorem C95_rms_of_kept_samples : forall erf bl hp bp wav a x b a' y b' f F l,
  length a = 14%nat -> length b = 15%nat -> length a' = 14%nat -> length b' = 15%nat ->
  d_567 erf bl hp bp wav (a ++ x ++ b) (a' ++ y ++ b') f F false = Ok l ->
  nth 0 l NaN = Fin (S_float erf (sqrt (rsum (map (fun p => snd p * snd p) x) / INR (length x)))
                                 (sqrt (rsum (map (fun p => snd p * snd p) y) / INR (length y)))).
Proof.
  intros erf bl hp bp wav a x b a' y b' f F l Ha Hb Ha' Hb' E. unfold d_567, rms_of, opt_bl in E. rewrite !trim_middle in E by assumption. cbn [bind] in E.
  destruct (max_abs (vals x)); [cbn [bind] in E|discriminate E]. destruct (num_int x) as [[vx ux]|]; [cbn [bind] in E|discriminate E].
  destruct (max_abs (vals y)); [cbn [bind] in E|discriminate E]. destruct (num_int y) as [[vy uy]|]; [cbn [bind] in E|discriminate E].
  injection E as <-. cbn [nth fst snd]. unfold rms, vals. rewrite !map_map, !map_length. reflexivity.
Qed.
(** The third score compares the Arias intensities of the filtered middle part. *)
Theorem C95_arias_of_kept_samples : forall erf bl hp bp a x b a' y b' f F baseline l,
  length a = 14%nat -> length b = 15%nat -> length a' = 14%nat -> length b' = 15%nat ->
  d_1234 erf bl hp bp (a ++ x ++ b) (a' ++ y ++ b') f F baseline = Ok l ->
  exists x0 y0 x1 y1 ix iy, (if baseline then bl x else Ok x) = Ok x0 /\ (if baseline then bl y else Ok y) = Ok y0 /\
    match F with None => hp f x0 | Some F => bp f F x0 end = Ok x1 /\ match F with None => hp f y0 | Some F => bp f F y0 end = Ok y1 /\
    calc_AriasIntensity x1 = Ok ix /\ calc_AriasIntensity y1 = Ok iy /\ nth 2 l NaN = Fin (S_float erf (snd ix) (snd iy)).
Proof.
  intros erf bl hp bp a x b a' y b' f F baseline l Ha Hb Ha' Hb' E. unfold d_1234, opt_bl, filt in E. rewrite !trim_middle in E by assumption.
  unbind E. injection E as <-. do 6 eexists. repeat (split; [eassumption|]). reflexivity.
Qed.
(** Records of at most 29 samples leave nothing and are rejected, whatever the
    corrections, as long as these do not make samples up. *)
Theorem C95_short_records : forall erf bl hp bp wav m s f F, (length m <= 29)%nat ->
  (forall l, d_567 erf bl hp bp wav m s f F false <> Ok l) /\
  ((forall f y, hp f [] = Ok y -> y = []) -> (forall f g y, bp f g [] = Ok y -> y = []) -> forall l, d_1234 erf bl hp bp m s f F false <> Ok l).
Proof.
  intros erf bl hp bp wav m s f F H. split.
  - intros l. unfold d_567, rms_of. rewrite trim_short by exact H. cbn. discriminate.
  - intros H1 H2 l E. unfold d_1234, opt_bl, filt in E. rewrite trim_short in E by exact H. cbn [bind] in E.
    destruct F as [F|].
    + destruct (bp f F []) as [y|] eqn:E1; [|discriminate E]. rewrite (H2 _ _ _ E1) in E. cbn [bind] in E. destruct (bp f F (trim s)); discriminate E.
    + destruct (hp f []) as [y|] eqn:E1; [|discriminate E]. rewrite (H1 _ _ E1) in E. cbn [bind] in E. destruct (hp f (trim s)); discriminate E.
Qed.

(** Score 8 is the average over the response periods between 1/fmax and 1/fmin
    (both included) and score 9 the average over the Fourier frequencies between
    fmin and fmax, for spectra on a common increasing grid. *)
Theorem C95_bands : forall erf bl resp four m s f F T A B fr P Q, 0 < f -> f < F -> (2 <= length m)%nat -> (2 <= length s)%nat ->
  resp m (Rmin (1 / F) (1/100)) (Rmax (1 / f) 5) = Ok (T, A) -> resp s (Rmin (1 / F) (1/100)) (Rmax (1 / f) 5) = Ok (T, B) ->
  four m = Ok (fr, P) -> four s = Ok (fr, Q) ->
  incr T -> incr fr -> length T = length A -> length T = length B -> length fr = length P -> length fr = length Q ->
  (exists t, In t T /\ 1 / F <= t <= 1 / f) -> (exists t, In t fr /\ f <= t <= F) ->
  d_89 erf bl resp four m s (Some f) (Some F) false =
  Ok [Fin (average (pair_scores erf (combine (within (1 / F) (1 / f) T A) (within (1 / F) (1 / f) T B))));
      Fin (average (pair_scores erf (combine (within f F fr P) (within f F fr Q))))].
Proof.
  intros erf bl resp four m s f F T A B fr P Q Hf HfF Hm Hs ErA ErB EfP EfQ HT Hfr LA LB LP LQ (t & Ht & Ht1 & Ht2) (u & Hu & Hu1 & Hu2).
  unfold d_89, opt_bl. cbn [bind]. rewrite !first_step_ok by assumption. cbn [bind band]. rewrite (proj2 (Rleb_false F f)) by exact HfF. cbn [bind fst snd].
  rewrite ErA, ErB. cbn [bind fst snd]. rewrite EfP, EfQ.
  destruct (window (1 / F) (1 / f) T HT) as (i & k & Ei & Ek & HW); [exists t; auto|exists t; auto|].
  destruct (window f F fr Hfr) as (i' & k' & Ei' & Ek' & HW'); [exists u; auto|exists u; auto|].
  rewrite Ei, Ek. cbn [bind fst snd]. rewrite Ei', Ek'. cbn [bind]. rewrite Nat.max_id, Nat.min_id.
  assert (HL : forall a b g v w, length g = length v -> length g = length w -> length (within a b g v) = length (within a b g w)).
  { intros a b g v w H1 H2. unfold within. rewrite !map_length. revert v w H1 H2. induction g as [|x g IH]; intros [|v0 v] [|w0 w] H1 H2; try discriminate; [reflexivity|].
    cbn [combine filter fst]. destruct (_ && _); cbn [length]; [f_equal|]; apply IH; cbn in H1, H2; lia. }
  assert (HN : forall a b g v x, In x g -> a <= x <= b -> length g = length v -> within a b g v <> []).
  { intros a b g. induction g as [|z g IH]; intros [|v0 v] x Hx Hab HLg; try destruct Hx; try discriminate.
    - subst z. unfold within. cbn [combine filter fst]. rewrite (proj2 (Rleb_true a x)), (proj2 (Rleb_true x b)) by lra. discriminate.
    - unfold within. cbn [combine filter fst]. destruct (_ && _); [discriminate|]. apply (IH v x); auto. }
  assert (HP : forall (v w : list R), length v = length w -> v <> [] -> pair_scores erf (combine v w) <> []).
  { intros [|? v] [|? w] H1 H2; try congruence; discriminate. }
  rewrite !(slice_within _ _ _ _ _ _ HT LA HW), !(slice_within _ _ _ _ _ _ HT LB HW), !(slice_within _ _ _ _ _ _ Hfr LP HW'), !(slice_within _ _ _ _ _ _ Hfr LQ HW').
  rewrite !S_array_fin by (apply HL; assumption). cbn [bind].
  rewrite !nmean_fin by (apply HP; [apply HL; assumption|]; first [apply (HN _ _ _ _ t); [assumption|lra|assumption] | apply (HN _ _ _ _ u); [assumption|lra|assumption]]). reflexivity.
Qed.

(** Response values outside the band do not matter (finding: the measured and
    simulated spectra are compared point by point, whatever grid the second has). *)
Theorem C95_outside_band_ignored : forall erf bl resp resp' four m s f F T A B A' B' fr P Q, 0 < f -> f < F -> (2 <= length m)%nat -> (2 <= length s)%nat ->
  resp m (Rmin (1 / F) (1/100)) (Rmax (1 / f) 5) = Ok (T, A) -> resp s (Rmin (1 / F) (1/100)) (Rmax (1 / f) 5) = Ok (T, B) ->
  resp' m (Rmin (1 / F) (1/100)) (Rmax (1 / f) 5) = Ok (T, A') -> resp' s (Rmin (1 / F) (1/100)) (Rmax (1 / f) 5) = Ok (T, B') ->
  four m = Ok (fr, P) -> four s = Ok (fr, Q) ->
  incr T -> incr fr -> length T = length A -> length T = length B -> length T = length A' -> length T = length B' -> length fr = length P -> length fr = length Q ->
  (exists t, In t T /\ 1 / F <= t <= 1 / f) -> (exists t, In t fr /\ f <= t <= F) ->
  (forall i, (i < length T)%nat -> 1 / F <= nth i T 0 <= 1 / f -> nth i A 0 = nth i A' 0 /\ nth i B 0 = nth i B' 0) ->
  d_89 erf bl resp four m s (Some f) (Some F) false = d_89 erf bl resp' four m s (Some f) (Some F) false.
Proof.
  intros erf bl resp resp' four m s f F T A B A' B' fr P Q Hf HfF Hm Hs E1 E2 E3 E4 E5 E6 HT Hfr L1 L2 L3 L4 L5 L6 Ht Hu HA.
  rewrite (C95_bands erf bl resp four m s f F T A B fr P Q), (C95_bands erf bl resp' four m s f F T A' B' fr P Q) by assumption.
  assert (W : forall (g v w : list R), length g = length v -> length g = length w ->
     (forall i, (i < length g)%nat -> 1 / F <= nth i g 0 <= 1 / f -> nth i v 0 = nth i w 0) -> within (1 / F) (1 / f) g v = within (1 / F) (1 / f) g w).
  { clear. intros g. unfold within. induction g as [|x g IH]; intros [|v0 v] [|w0 w] H1 H2 H; try discriminate; [reflexivity|].
    cbn [combine filter fst]. assert (E : map snd (filter (fun p => Rleb (1 / F) (fst p) && Rleb (fst p) (1 / f)) (combine g v)) = map snd (filter (fun p => Rleb (1 / F) (fst p) && Rleb (fst p) (1 / f)) (combine g w))).
    { apply IH; [cbn in H1; lia|cbn in H2; lia|]. intros i Hi Hb. apply (H (S i)); [cbn; lia|exact Hb]. }
    destruct (Rleb_spec (1 / F) x); cbn [andb]; [|exact E]. destruct (Rleb_spec x (1 / f)); cbn [andb map snd]; [|exact E].
    rewrite E. f_equal. apply (H 0%nat); [cbn; lia|cbn; lra]. }
  rewrite (W T A A'), (W T B B'); try assumption; [reflexivity| |]; intros i Hi Hb; apply (HA i Hi Hb).
Qed.

Example C95_instance : let erf := fun x => 2 / PI * atan x in let four := fun x : signal => Ok ([1; 3; 9], match x with (_, v) :: _ => [v; v; 7] | [] => [] end) in
  let resp := fun (x : signal) (_ _ : R) => Ok ([1/10; 1/2; 3], match x with (_, v) :: _ => [5; v; 8] | [] => [] end) in
  exists a b, d_89 erf (fun x => Ok x) resp four [(0, 1); (1, 1)] [(0, 2); (1, 2)] (Some 1) (Some 4) false = Ok [Fin a; Fin b] /\ a = 5 /\ b = 5.
Proof.
  intros erf four resp. eexists _, _. split.
  - apply (C95_bands erf (fun x => Ok x) resp four _ _ 1 4 [1/10; 1/2; 3] [5; 1; 8] [5; 2; 8] [1; 3; 9] [1; 1; 7] [2; 2; 7]); try reflexivity; try (cbn; lra); try (cbn; lia);
      [exists (1/2)|exists 1]; cbn; split; auto; lra.
  - pose proof C50_instance as E5. unfold within. cbn [combine filter fst].
    repeat match goal with |- context [Rleb ?a ?b] => destruct (Rleb_spec a b); [|first [lra|idtac]]; try lra end; cbn [andb map snd combine pair_scores fst].
    unfold pair_scores, average. cbn [map fst snd rsum length]. fold erf in E5. rewrite E5. cbn. split; lra.
Qed.
