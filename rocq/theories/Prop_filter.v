(** Theorems about the filters: C33 (dispatch) and C80 (linearity, causality). *)
From Coq Require Import Reals List Bool ZArith Lia Lra Psatz.
From Verif Require Import Base M_generic M_motion M_interp M_soil M_signal Prop_fourier.
Import ListNotations.
Open Scope R_scope.

(** ** Second-order sections *)
Definition lincomb (a b : R) (x y : list R) : list R := map (fun p => a * fst p + b * snd p) (combine x y).
Lemma lincomb_length a b x y : length x = length y -> length (lincomb a b x y) = length x.
Proof. intros H. unfold lincomb. rewrite map_length, combine_length. lia. Qed.
Lemma biquad_length c x : forall z1 z2, length (biquad c z1 z2 x) = length x.
Proof. induction x as [|u x IH]; intros; cbn [biquad length]; [reflexivity|]. rewrite IH. reflexivity. Qed.
Lemma biquad_linear c a b x : forall y z1 z2 w1 w2, length x = length y ->
  biquad c (a * z1 + b * w1) (a * z2 + b * w2) (lincomb a b x y) = lincomb a b (biquad c z1 z2 x) (biquad c w1 w2 y).
Proof.
  induction x as [|u x IH]; intros [|v y] z1 z2 w1 w2 H; try discriminate; [reflexivity|]. cbn [lincomb combine map biquad fst snd]. f_equal; [ring|].
  unfold lincomb in IH. rewrite <- IH by (cbn in H; lia). f_equal; ring.
Qed.
Lemma biquad_causal c n : forall x z1 z2, firstn n (biquad c z1 z2 x) = biquad c z1 z2 (firstn n x).
Proof. induction n as [|n IH]; intros [|u x] z1 z2; cbn [firstn biquad]; try reflexivity. rewrite IH. reflexivity. Qed.
Lemma biquad_delay c m x : biquad c 0 0 (repeat 0 m ++ x) = repeat 0 m ++ biquad c 0 0 x.
Proof.
  induction m as [|m IH]; [reflexivity|]. cbn [repeat app biquad]. f_equal; [ring|]. rewrite <- IH. f_equal; ring.
Qed.
Lemma sosfilt_length sos : forall x, length (sosfilt sos x) = length x.
Proof. unfold sosfilt. induction sos as [|c sos IH]; intros x; cbn [fold_left]; [reflexivity|]. rewrite IH. apply biquad_length. Qed.
Lemma sosfilt_linear sos a b : forall x y, length x = length y -> sosfilt sos (lincomb a b x y) = lincomb a b (sosfilt sos x) (sosfilt sos y).
Proof.
  unfold sosfilt. induction sos as [|c sos IH]; intros x y H; cbn [fold_left]; [reflexivity|].
  pose proof (biquad_linear c a b x y 0 0 0 0 H) as E. replace (a * 0 + b * 0) with 0 in E by ring. rewrite E. apply IH. rewrite !biquad_length. exact H.
Qed.
Lemma sosfilt_causal sos n : forall x, firstn n (sosfilt sos x) = sosfilt sos (firstn n x).
Proof. unfold sosfilt. induction sos as [|c sos IH]; intros x; cbn [fold_left]; [reflexivity|]. rewrite IH, biquad_causal. reflexivity. Qed.
Lemma sosfilt_delay sos m : forall x, sosfilt sos (repeat 0 m ++ x) = repeat 0 m ++ sosfilt sos x.
Proof. unfold sosfilt. induction sos as [|c sos IH]; intros x; cbn [fold_left]; [reflexivity|]. rewrite biquad_delay. apply IH. Qed.
Lemma sosfilt_zero sos n : sosfilt sos (repeat 0 n) = repeat 0 n.
Proof. rewrite <- (app_nil_r (repeat 0 n)) at 1. rewrite sosfilt_delay. assert (E : sosfilt sos [] = []) by (apply length_zero_iff_nil; rewrite sosfilt_length; reflexivity). rewrite E. apply app_nil_r. Qed.
Lemma sosfilt_scale sos c x : sosfilt sos (map (Rmult c) x) = map (Rmult c) (sosfilt sos x).
Proof.
  assert (E : forall l, map (Rmult c) l = lincomb c 0 l l). { clear. unfold lincomb. induction l as [|u l IH]; [reflexivity|]. cbn [map combine fst snd]. rewrite IH. f_equal. ring. }
  rewrite !E. apply sosfilt_linear. reflexivity.
Qed.

Lemma combine_times (s : signal) v : length v = length s -> times (with_vals s v) = times s /\ vals (with_vals s v) = v.
Proof.
  unfold with_vals, times, vals. intros H.
  assert (G : forall (l1 l2 : list R), length l2 = length l1 -> map fst (combine l1 l2) = l1 /\ map snd (combine l1 l2) = l2).
  { clear. induction l1 as [|x l1 IH]; intros [|y l2] H; try discriminate; [split; reflexivity|]. cbn [combine map fst snd]. destruct (IH l2 ltac:(cbn in H; lia)) as [-> ->]. split; reflexivity. }
  apply G. rewrite map_length. exact H.
Qed.

Section C33.
Variable butter : nat -> fkind -> list R -> list section.

(** ** C33 dispatch *)

(** A filtered copy: same times, values filtered by the design for the given kind and
    cutoffs in units of the Nyquist frequency 1/(2 dt). *)
Definition filtered (s : signal) (order : nat) (k : fkind) (Wn : list R) : fout := FNew (with_vals s (sosfilt (butter order k Wn) (vals s))).

Lemma nyquist_eq dt : 0 < dt -> nyquist dt = / (2 * dt).
Proof. intros. unfold nyquist. field. lra. Qed.
Lemma normalised dt f : 0 < dt -> f / nyquist dt = 2 * dt * f.
Proof. intros. rewrite nyquist_eq by assumption. field. lra. Qed.
Lemma nyquist_le dt f : 0 < dt -> nyquist dt <= f <-> 1 <= 2 * dt * f.
Proof.
  intros. rewrite nyquist_eq by assumption. split; intros H'.
  - apply Rmult_le_compat_l with (r := 2 * dt) in H'; [|lra]. rewrite Rinv_r in H' by lra. lra.
  - apply Rmult_le_reg_l with (2 * dt); [lra|]. rewrite Rinv_r by lra. lra.
Qed.

Theorem C33_lowpass : forall s f order dt, first_step s = Ok dt -> 0 < dt ->
  (1 <= 2 * dt * f -> filter_kernel butter s (CNum f) Lowpass order = Ok FSame) /\
  (0 < 2 * dt * f < 1 -> filter_kernel butter s (CNum f) Lowpass order = Ok (filtered s order Lowpass [2 * dt * f])) /\
  (f <= 0 -> filter_kernel butter s (CNum f) Lowpass order = Err ValueError).
Proof.
  intros s f order dt F Hd. cbn [filter_kernel]. unfold filter_low, design. rewrite F. cbn [bind]. rewrite normalised by exact Hd. pose proof (nyquist_le dt f Hd) as NL. cbn [forallb]. split; [|split]; intros H.
  - rewrite (proj2 (Rleb_true _ _)) by tauto. reflexivity.
  - rewrite (proj2 (Rleb_false _ _)) by (destruct (Rlt_le_dec f (nyquist dt)); [assumption|]; apply NL in r; lra). rewrite (proj2 (Rltb_true _ _)), (proj2 (Rltb_true _ _)) by lra. reflexivity.
  - assert (2 * dt * f <= 0) by nra. rewrite (proj2 (Rleb_false _ _)) by (destruct (Rlt_le_dec f (nyquist dt)); [assumption|]; apply NL in r; lra). rewrite (proj2 (Rltb_false 0 _)) by lra. reflexivity.
Qed.

Theorem C33_highpass : forall s f order dt, first_step s = Ok dt -> 0 < dt ->
  (f <= 0 -> filter_kernel butter s (CNum f) Highpass order = Ok FSame) /\
  (0 < 2 * dt * f < 1 -> filter_kernel butter s (CNum f) Highpass order = Ok (filtered s order Highpass [2 * dt * f])) /\
  (1 <= 2 * dt * f -> filter_kernel butter s (CNum f) Highpass order = Err ValueError).
Proof.
  intros s f order dt F Hd. cbn [filter_kernel]. unfold filter_high, design. rewrite F. cbn [bind]. rewrite normalised by exact Hd. cbn [forallb]. split; [|split]; intros H.
  - rewrite (proj2 (Rleb_true _ _)) by assumption. reflexivity.
  - rewrite (proj2 (Rleb_false _ _)) by (destruct (Rlt_le_dec 0 f); [assumption|]; assert (2 * dt * f <= 0) by nra; lra). rewrite (proj2 (Rltb_true _ _)), (proj2 (Rltb_true _ _)) by lra. reflexivity.
  - rewrite (proj2 (Rleb_false _ _)) by (destruct (Rlt_le_dec 0 f); [assumption|]; assert (2 * dt * f <= 0) by nra; lra). rewrite (proj2 (Rltb_true 0 _)), (proj2 (Rltb_false _ 1)) by lra. reflexivity.
Qed.

(** Band filters become one-sided filters when a corner is within 0.01 % of the Nyquist
    frequency or at most one frequency bin, and otherwise design both corners inside
    (0, 1).  A band stop over the whole band raises (finding). *)
Theorem C33_band : forall s fmin fmax order dt, first_step s = Ok dt -> 0 < dt -> fmin < fmax ->
  let bp := filter_kernel butter s (CSeq [fmin; fmax]) Bandpass order in
  let bs := filter_kernel butter s (CSeq [fmin; fmax]) Bandstop order in
  let low f := filter_kernel butter s (CNum f) Lowpass order in
  let high f := filter_kernel butter s (CNum f) Highpass order in
  (9999 / 10000 <= 2 * dt * fmax -> bp = high fmin /\ bs = low fmin) /\
  (2 * dt * fmax < 9999 / 10000 -> fmin <= 1 / (INR (length s) * dt) -> bp = low fmax /\ bs = high fmax) /\
  (2 * dt * fmax < 9999 / 10000 -> 1 / (INR (length s) * dt) < fmin ->
     bp = Ok (filtered s order Bandpass [2 * dt * fmin; 2 * dt * fmax]) /\ bs = Ok (filtered s order Bandstop [2 * dt * fmin; 2 * dt * fmax]) /\
     0 < 2 * dt * fmin < 2 * dt * fmax /\ 2 * dt * fmax < 1).
Proof.
  intros s fmin fmax order dt F Hd Hf. cbv zeta. cbn [filter_kernel]. rewrite F. cbn [bind]. rewrite (proj2 (Rleb_false fmax fmin)) by lra.
  pose proof (first_step_len s dt F) as L. assert (HN : 0 < INR (length s)) by (apply lt_0_INR; lia).
  assert (NF : nyquist dt * (9999 / 10000) <= fmax <-> 9999 / 10000 <= 2 * dt * fmax).
  { rewrite nyquist_eq by exact Hd. split; intros H.
    - apply Rmult_le_compat_l with (r := 2 * dt) in H; [|lra]. rewrite <- Rmult_assoc, Rinv_r in H by lra. lra.
    - apply Rmult_le_reg_l with (2 * dt); [lra|]. rewrite <- Rmult_assoc, Rinv_r by lra. lra. }
  split; [|split].
  - intros H. rewrite (proj2 (Rleb_true _ _)) by tauto. split; reflexivity.
  - intros H H'. rewrite (proj2 (Rleb_false _ fmax)) by (destruct (Rlt_le_dec fmax (nyquist dt * (9999 / 10000))) as [Q|Q]; [exact Q|apply NF in Q; lra]).
    rewrite (proj2 (Rleb_true fmin _)) by exact H'. split; reflexivity.
  - intros H H'. rewrite (proj2 (Rleb_false _ fmax)) by (destruct (Rlt_le_dec fmax (nyquist dt * (9999 / 10000))) as [Q|Q]; [exact Q|apply NF in Q; lra]).
    rewrite (proj2 (Rleb_false fmin _)) by exact H'. unfold design. rewrite !normalised by exact Hd.
    assert (0 < 1 / (INR (length s) * dt)) by (apply Rdiv_lt_0_compat; nra). assert (0 < 2 * dt * fmin) by nra. assert (2 * dt * fmin < 2 * dt * fmax) by nra.
    cbn [forallb]. rewrite (proj2 (Rltb_true 0 (2 * dt * fmin))), (proj2 (Rltb_true (2 * dt * fmin) 1)), (proj2 (Rltb_true 0 (2 * dt * fmax))), (proj2 (Rltb_true (2 * dt * fmax) 1)) by lra.
    cbn [andb]. split; [reflexivity|]. split; [reflexivity|]. lra.
Qed.

Theorem C33_bad_arguments : forall s order,
  (forall f k, (k = Bandpass \/ k = Bandstop) -> filter_kernel butter s (CNum f) k order = Err TypeError) /\
  (forall k, k <> BadKind -> filter_kernel butter s COther k order = Err TypeError) /\
  (forall l k, (k = Lowpass \/ k = Highpass) -> filter_kernel butter s (CSeq l) k order = Err TypeError) /\
  (forall l k, (k = Bandpass \/ k = Bandstop) -> length l <> 2%nat -> filter_kernel butter s (CSeq l) k order = Err ValueError) /\
  (forall a b k, (k = Bandpass \/ k = Bandstop) -> b <= a -> filter_kernel butter s (CSeq [a; b]) k order = Err ValueError) /\
  (forall c, filter_kernel butter s c BadKind order = Err ValueError).
Proof.
  intros s order. split; [intros f k [-> | ->]; reflexivity|]. split; [intros [| | | |] H; try reflexivity; congruence|]. split; [intros l k [-> | ->]; reflexivity|]. split; [|split].
  - intros l k Hk Hl. destruct l as [|? [|? [|? ?]]]; try (destruct Hk; subst; reflexivity). cbn in Hl. lia.
  - intros a b k Hk Hab. destruct Hk; subst; cbn [filter_kernel]; rewrite (proj2 (Rleb_true b a)) by exact Hab; reflexivity.
  - intros c. reflexivity.
Qed.

(** For given times, every call is an error, the identity on the caller's own array, or
    one fixed cascade of sections. *)
Lemma kernel_cases ts c k order : exists r : res (option (list section)), forall s, times s = ts ->
  filter_kernel butter s c k order = match r with Err e => Err e | Ok None => Ok FSame | Ok (Some sos) => Ok (FNew (with_vals s (sosfilt sos (vals s)))) end.
Proof.
  assert (D : forall k Wn, exists r : res (option (list section)), forall s, times s = ts -> design butter order k Wn s = match r with Err e => Err e | Ok None => Ok FSame | Ok (Some sos) => Ok (FNew (with_vals s (sosfilt sos (vals s)))) end).
  { intros k0 Wn. unfold design. destruct (forallb _ Wn); [exists (Ok (Some (butter order k0 Wn)))|exists (Err ValueError)]; reflexivity. }
  set (step := let! t1 := get ts 1 in let! t0 := get ts 0 in Ok (t1 - t0)).
  assert (ST : forall s, times s = ts -> first_step s = step) by (intros s <-; reflexivity).
  assert (LN : forall s, times s = ts -> length s = length ts) by (intros s <-; unfold times; rewrite map_length; reflexivity).
  assert (Lo : forall f, exists r : res (option (list section)), forall s, times s = ts -> filter_low butter s f order = match r with Err e => Err e | Ok None => Ok FSame | Ok (Some sos) => Ok (FNew (with_vals s (sosfilt sos (vals s)))) end).
  { intros f. unfold filter_low. destruct step as [dt|e] eqn:Es.
    - destruct (Rleb (nyquist dt) f) eqn:Eb; [exists (Ok None)|destruct (D Lowpass [f / nyquist dt]) as [r Hr]; exists r]; intros s Hs; rewrite (ST s Hs); cbn [bind]; rewrite Eb; auto.
    - exists (Err e). intros s Hs. rewrite (ST s Hs). reflexivity. }
  assert (Hi : forall f, exists r : res (option (list section)), forall s, times s = ts -> filter_high butter s f order = match r with Err e => Err e | Ok None => Ok FSame | Ok (Some sos) => Ok (FNew (with_vals s (sosfilt sos (vals s)))) end).
  { intros f. unfold filter_high. destruct step as [dt|e] eqn:Es.
    - destruct (Rleb f 0) eqn:Eb; [exists (Ok None)|destruct (D Highpass [f / nyquist dt]) as [r Hr]; exists r]; intros s Hs; rewrite (ST s Hs); cbn [bind]; auto.
    - exists (Err e). intros s Hs. rewrite (ST s Hs). reflexivity. }
  assert (B : forall k, (k = Bandpass \/ k = Bandstop) -> exists r : res (option (list section)), forall s, times s = ts ->
    filter_kernel butter s c k order = match r with Err e => Err e | Ok None => Ok FSame | Ok (Some sos) => Ok (FNew (with_vals s (sosfilt sos (vals s)))) end).
  { intros k0 Hk. destruct c as [f|l|].
    - exists (Err TypeError). intros s _. destruct Hk; subst; reflexivity.
    - destruct l as [|fmin [|fmax [|x l]]]; [exists (Err ValueError); intros s _; destruct Hk; subst; reflexivity..| |exists (Err ValueError); intros s _; destruct Hk; subst; reflexivity].
      destruct (Rleb fmax fmin) eqn:Ef; [exists (Err ValueError); intros s _; destruct Hk; subst; cbn [filter_kernel]; rewrite Ef; reflexivity|].
      destruct step as [dt|e] eqn:Es; [|exists (Err e); intros s Hs; destruct Hk; subst k0; cbn [filter_kernel]; rewrite Ef, (ST s Hs); reflexivity].
      destruct (Rleb (nyquist dt * (9999 / 10000)) fmax) eqn:E1.
      { destruct Hk; subst k0; [destruct (Hi fmin) as [r Hr]|destruct (Lo fmin) as [r Hr]]; exists r; intros s Hs; cbn [filter_kernel]; rewrite Ef, (ST s Hs); cbn [bind]; rewrite E1; apply Hr, Hs. }
      destruct (Rleb fmin (1 / (INR (length ts) * dt))) eqn:E2.
      { destruct Hk; subst k0; [destruct (Lo fmax) as [r Hr]|destruct (Hi fmax) as [r Hr]]; exists r; intros s Hs; cbn [filter_kernel]; rewrite Ef, (ST s Hs); cbn [bind]; rewrite E1, (LN s Hs), E2; apply Hr, Hs. }
      destruct (D k0 [fmin / nyquist dt; fmax / nyquist dt]) as [r Hr]. exists r. intros s Hs. rewrite <- (Hr s Hs). destruct Hk; subst k0; cbn [filter_kernel]; rewrite Ef, (ST s Hs); cbn [bind]; rewrite E1, (LN s Hs), E2; reflexivity.
    - exists (Err TypeError). intros s _. destruct Hk; subst; reflexivity. }
  destruct k; [| |apply B; auto..|exists (Err ValueError); intros; reflexivity].
  - destruct c as [f|l|]; [|exists (Err TypeError); intros; reflexivity..]. destruct (Lo f) as [r Hr]. exists r. intros s Hs. cbn [filter_kernel]. auto.
  - destruct c as [f|l|]; [|exists (Err TypeError); intros; reflexivity..]. destruct (Hi f) as [r Hr]. exists r. intros s Hs. cbn [filter_kernel]. auto.
Qed.

(** Whatever the arguments, a filtered record keeps the times and the length. *)
Theorem C33_shape : forall s c k order o, filter_kernel butter s c k order = Ok o -> times (out_of s o) = times s /\ length (out_of s o) = length s.
Proof.
  intros s c k order o H. destruct (kernel_cases (times s) c k order) as [r Hr]. rewrite (Hr s eq_refl) in H. destruct r as [[sos|]|e]; [| |discriminate]; injection H as <-; cbn [out_of].
  - destruct (combine_times s (sosfilt sos (vals s))) as [Ht _]; [rewrite sosfilt_length, vals_length; reflexivity|]. split; [exact Ht|]. apply (f_equal (@length R)) in Ht. unfold times in Ht. rewrite !map_length in Ht. exact Ht.
  - split; reflexivity.
Qed.

(** ** C80 linearity and causality *)

(** A filter never looks ahead: outputs up to a sample depend on inputs up to it only. *)
Theorem C80_causal : forall s s' c k order o o' n, times s' = times s -> firstn n (vals s') = firstn n (vals s) ->
  filter_kernel butter s c k order = Ok o -> filter_kernel butter s' c k order = Ok o' -> firstn n (vals (out_of s' o')) = firstn n (vals (out_of s o)).
Proof.
  intros s s' c k order o o' n HT HV H H'. destruct (kernel_cases (times s) c k order) as [r Hr]. rewrite (Hr s eq_refl) in H. rewrite (Hr s' HT) in H'. destruct r as [[sos|]|e]; [| |discriminate]; injection H as <-; injection H' as <-; cbn [out_of]; [|exact HV].
  destruct (combine_times s (sosfilt sos (vals s))) as [_ ->]; [rewrite sosfilt_length, vals_length; reflexivity|]. destruct (combine_times s' (sosfilt sos (vals s'))) as [_ ->]; [rewrite sosfilt_length, vals_length; reflexivity|].
  rewrite !sosfilt_causal, HV. reflexivity.
Qed.

(** Superposition; the same outcome (error, same object, new array) for all values. *)
Theorem C80_linear : forall s1 s2 a b c k order, times s2 = times s1 ->
  match filter_kernel butter s1 c k order, filter_kernel butter s2 c k order, filter_kernel butter (with_vals s1 (lincomb a b (vals s1) (vals s2))) c k order with
  | Ok o1, Ok o2, Ok o => vals (out_of (with_vals s1 (lincomb a b (vals s1) (vals s2))) o) = lincomb a b (vals (out_of s1 o1)) (vals (out_of s2 o2)) /\
      (o1 = FSame <-> o = FSame) /\ (o2 = FSame <-> o = FSame)
  | Err e1, Err e2, Err e => e1 = e /\ e2 = e
  | _, _, _ => False
  end.
Proof.
  intros s1 s2 a b c k order HT. assert (LS : length s2 = length s1) by (apply (f_equal (@length R)) in HT; unfold times in HT; rewrite !map_length in HT; exact HT).
  set (s := with_vals s1 (lincomb a b (vals s1) (vals s2))).
  destruct (combine_times s1 (lincomb a b (vals s1) (vals s2))) as [Ht Hv]; [rewrite lincomb_length; rewrite ?vals_length; congruence|]. fold s in Ht, Hv.
  destruct (kernel_cases (times s1) c k order) as [r Hr]. rewrite (Hr s1 eq_refl), (Hr s2 HT), (Hr s Ht). destruct r as [[sos|]|e]; cbn [out_of].
  - destruct (combine_times s (sosfilt sos (vals s))) as [_ ->]; [rewrite sosfilt_length, vals_length; reflexivity|]. destruct (combine_times s1 (sosfilt sos (vals s1))) as [_ ->]; [rewrite sosfilt_length, vals_length; reflexivity|].
    destruct (combine_times s2 (sosfilt sos (vals s2))) as [_ ->]; [rewrite sosfilt_length, vals_length; reflexivity|]. rewrite Hv. split; [apply sosfilt_linear; rewrite !vals_length; congruence|]. split; split; discriminate.
  - rewrite Hv. split; [reflexivity|]. split; split; reflexivity.
  - split; reflexivity.
Qed.

(** A quiet start stays quiet and a delay of the record only delays the output: a
    one-sided response, not the zero-phase response promised by the documentation
    (finding). *)
Theorem C80_delay : forall s x m c k order o, vals s = repeat 0 m ++ x -> filter_kernel butter s c k order = Ok o ->
  firstn m (vals (out_of s o)) = repeat 0 m /\
  forall s' o', times s' = times s -> vals s' = x ++ repeat 0 m -> filter_kernel butter s' c k order = Ok o' ->
    skipn m (vals (out_of s o)) = firstn (length x) (vals (out_of s' o')).
Proof.
  intros s x m c k order o HV H. destruct (kernel_cases (times s) c k order) as [r Hr]. rewrite (Hr s eq_refl) in H.
  assert (FA : forall l, firstn m (repeat 0 m ++ l) = repeat 0 m) by (intros l; rewrite firstn_app, firstn_all2 by (rewrite repeat_length; lia); rewrite repeat_length, Nat.sub_diag; apply app_nil_r).
  assert (SA : forall l : list R, skipn m (repeat 0 m ++ l) = l) by (intros l; rewrite skipn_app, skipn_all2 by (rewrite repeat_length; lia); rewrite repeat_length, Nat.sub_diag; reflexivity).
  assert (FX : forall l1 l2 : list R, firstn (length l1) (l1 ++ l2) = l1) by (intros l1 l2; rewrite firstn_app, firstn_all, Nat.sub_diag; apply app_nil_r).
  destruct r as [[sos|]|e]; [| |discriminate]; injection H as <-; cbn [out_of].
  - destruct (combine_times s (sosfilt sos (vals s))) as [_ ->]; [rewrite sosfilt_length, vals_length; reflexivity|]. rewrite HV, sosfilt_delay. split; [apply FA|]. intros s' o' HT HV' H'. rewrite (Hr s' HT) in H'. injection H' as <-. cbn [out_of].
    destruct (combine_times s' (sosfilt sos (vals s'))) as [_ ->]; [rewrite sosfilt_length, vals_length; reflexivity|]. rewrite HV', SA, sosfilt_causal, FX. reflexivity.
  - rewrite HV. split; [apply FA|]. intros s' o' HT HV' H'. rewrite (Hr s' HT) in H'. injection H' as <-. cbn [out_of]. rewrite HV', SA, FX. reflexivity.
Qed.
End C33.

(** Concrete cases: a record sampled at 0.01 s, 10 Hz low pass. *)
Definition butter1 (order : nat) (k : fkind) (Wn : list R) : list section := [mksec (1/2) (1/2) 0 0 0].
Example C33_instance : let s := [(0, 1); (1/100, 3); (2/100, 0)] in
  first_step s = Ok (1/100 - 0) /\ filter_kernel butter1 s (CNum 10) Lowpass 4 = Ok (FNew [(0, 1/2*1+0); (1/100, 1/2*3+(1/2*1-0*(1/2*1+0)+0)); (2/100, 1/2*0+(1/2*3-0*(1/2*3+(1/2*1-0*(1/2*1+0)+0))+(0*1-0*(1/2*1+0))))]).
Proof.
  cbv zeta. split; [reflexivity|]. destruct (C33_lowpass butter1 [(0, 1); (1/100, 3); (2/100, 0)] 10 4 (1/100 - 0)) as (_ & H & _); [reflexivity|lra|]. rewrite H by lra. reflexivity.
Qed.
Example C80_instance : let s := [(0, 0); (1/100, 4); (2/100, 0)] in vals s = repeat 0 1 ++ [4; 0] /\
  exists o, filter_kernel butter1 s (CNum 10) Lowpass 4 = Ok o /\ nth 1 (vals (out_of s o)) 0 = 2.
Proof.
  cbv zeta. split; [reflexivity|]. destruct (C33_lowpass butter1 [(0, 0); (1/100, 4); (2/100, 0)] 10 4 (1/100 - 0)) as (_ & H & _); [reflexivity|lra|]. rewrite H by lra. eexists. split; [reflexivity|]. cbn. lra.
Qed.
