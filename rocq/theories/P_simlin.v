(** Lemmas about the model of the frequency-domain simulations. *)
From Coq Require Import Reals List Bool ZArith Lia Lra.
From Coquelicot Require Import Complex Derive.
From Coq Require Import List.
From Verif Require Import Base M_generic M_profile M_vs_profile M_motion M_interp M_dft P_dft M_spectra P_spectra M_linear P_linear M_simlin.
From Verif Require Import Prop_linear.
Import ListNotations.
Open Scope R_scope.

(** ** Layers given by modulus *)
Definition e_ok (l : elay) : Prop := 0 < e_G l /\ 0 < e_rho l /\ 0 <= e_D l /\ 0 <= e_h l.
Definition as_lay (l : elay) : lay := mklay (e_h l) (sqrt (e_G l / e_rho l)) (e_D l) (e_rho l).

Lemma as_lay_phys l : e_ok l -> phys (as_lay l).
Proof.
  intros (G0 & R0 & D0 & H0). unfold phys, as_lay. cbn [l_vs l_rho l_xi l_h]. repeat split; try assumption.
  apply sqrt_lt_R0. apply Rdiv_lt_0_compat; assumption.
Qed.
Lemma vs_star_as l : e_ok l -> vs_star_e l = vs_star (as_lay l).
Proof.
  intros (G0 & R0 & D0 & H0). rewrite vs_star_eq. unfold as_lay. cbn [l_vs l_xi].
  assert (Q : 0 < e_G l / e_rho l) by (apply Rdiv_lt_0_compat; assumption).
  rewrite <- csqrt_scale by (apply sqrt_lt_R0, Q). rewrite sqrt_sqrt by lra.
  unfold vs_star_e. fold (damp (e_D l)). f_equal. unfold Rdiv. rewrite RtoC_mult, RtoC_inv by lra. unfold Cdiv. ring.
Qed.
Lemma alpha_as l1 l2 : e_ok l1 -> e_ok l2 -> alpha_e l1 l2 = alpha_star (as_lay l1) (as_lay l2).
Proof. intros H1 H2. unfold alpha_e, alpha_star. rewrite !vs_star_as by assumption. reflexivity. Qed.
Lemma k_as omega l : e_ok l -> k_e omega l = k_star omega (as_lay l).
Proof. intros H. unfold k_e, k_star. rewrite vs_star_as by exact H. unfold Cdiv. ring. Qed.

(** Layers of a profile, by velocity. *)
Lemma as_lay_row r : 0 < nth 1 (r_rest r) 0 -> 0 < r_vs r -> as_lay (elay_of r) = lay_of_row r.
Proof.
  intros R0 V0. unfold as_lay, elay_of, lay_of_row. cbn [e_h e_G e_D e_rho]. f_equal.
  replace (nth 1 (r_rest r) 0 * r_vs r ^ 2 / nth 1 (r_rest r) 0) with (r_vs r * r_vs r) by (field; lra). apply sqrt_square. lra.
Qed.

(** ** The recursion *)
Definition ratios (ls : list elay) : list C := map (fun p => alpha_e (fst p) (snd p)) (combine ls (tl ls)).
Lemma ratios_cons l1 l2 ls : ratios (l1 :: l2 :: ls) = alpha_e l1 l2 :: ratios (l2 :: ls).
Proof. reflexivity. Qed.
Lemma ratios_length l ls : length (ratios (l :: ls)) = length ls.
Proof. unfold ratios. rewrite map_length, combine_length. cbn [tl length]. lia. Qed.

Definition next (omega : R) (l : elay) (a A B : C) : C * C :=
  let ep := cexp (Cmult (Cmult Ci (k_e omega l)) (RtoC (e_h l))) in
  let em := cexp (Cmult (Cmult (Copp Ci) (k_e omega l)) (RtoC (e_h l))) in
  let half := RtoC (1 / 2) in
  (Cplus (Cmult (Cmult (Cmult half A) (Cplus (RtoC 1) a)) ep) (Cmult (Cmult (Cmult half B) (Cminus (RtoC 1) a)) em),
   Cplus (Cmult (Cmult (Cmult half A) (Cminus (RtoC 1) a)) ep) (Cmult (Cmult (Cmult half B) (Cplus (RtoC 1) a)) em)).
Lemma amps_next omega l ls a al A B : amps omega (l :: ls) (a :: al) A B =
  (A, B) :: amps omega ls al (fst (next omega l a A B)) (snd (next omega l a A B)).
Proof. reflexivity. Qed.

Lemma amps_cons omega l1 l2 ls al v : e_ok l1 -> e_ok l2 ->
  amps omega (l1 :: l2 :: ls) (alpha_e l1 l2 :: al) (fst v) (snd v) =
  v :: let w := step omega (as_lay l1) (as_lay l2) v in amps omega (l2 :: ls) al (fst w) (snd w).
Proof.
  intros H1 H2. rewrite amps_next. destruct v as [A B]. cbn [fst snd]. f_equal. cbv zeta.
  assert (E : next omega l1 (alpha_e l1 l2) A B = step omega (as_lay l1) (as_lay l2) (A, B)).
  { unfold step, at_bottom, next. cbn [fst snd]. rewrite <- alpha_as, <- k_as by assumption. cbn [l_h as_lay]. f_equal; ring. }
  rewrite E. reflexivity.
Qed.

Lemma amps_elastic omega : forall ls v, Forall e_ok ls -> ls <> [] ->
  amps omega ls (ratios ls) (fst v) (snd v) = waves omega (map as_lay ls) v.
Proof.
  induction ls as [|l1 ls IH]; intros v F N; [congruence|]. destruct ls as [|l2 ls].
  - destruct v. reflexivity.
  - inversion F as [|? ? H1 F']; subst. inversion F' as [|? ? H2 _]; subst.
    rewrite ratios_cons, amps_cons by assumption. rewrite IH by (try discriminate; assumption). reflexivity.
Qed.

(** The last ratio set to zero: both amplitudes are half the motion of the base. *)
Definition half_base (w : C * C) : C * C := let s := Cmult (RtoC (1 / 2)) (Cplus (fst w) (snd w)) in (s, s).
Lemma amps_rigid omega : forall ls v, Forall e_ok ls -> (2 <= length ls)%nat ->
  amps omega ls (removelast (ratios ls) ++ [RtoC 0]) (fst v) (snd v) =
  removelast (waves omega (map as_lay ls) v) ++ [half_base (final omega (map as_lay ls) v)].
Proof.
  induction ls as [|l1 ls IH]; intros v F N; [cbn in N; lia|]. destruct ls as [|l2 ls]; [cbn in N; lia|].
  inversion F as [|? ? H1 F']; subst. inversion F' as [|? ? H2 _]; subst. destruct ls as [|l3 ls].
  - change (ratios [l1; l2]) with [alpha_e l1 l2]. cbn [removelast app map waves final]. cbn [amps]. f_equal; [destruct v; reflexivity|]. f_equal.
    pose proof (step_continuity omega (as_lay l1) (as_lay l2) v (as_lay_phys _ H1) (as_lay_phys _ H2)) as SC.
    destruct (step omega (as_lay l1) (as_lay l2) v) as [A B]. unfold at_bottom in SC. cbn [fst snd] in SC. destruct SC as [SC _].
    unfold half_base. cbn [fst snd]. rewrite SC. rewrite <- k_as by exact H1. cbn [l_h as_lay]. f_equal; ring.
  - rewrite ratios_cons.
    change (removelast (alpha_e l1 l2 :: ratios (l2 :: l3 :: ls))) with (alpha_e l1 l2 :: removelast (ratios (l2 :: l3 :: ls))).
    cbn [app]. rewrite amps_cons by assumption. cbv zeta.
    rewrite IH by (try assumption; cbn [length]; lia).
    cbn [map]. change (waves omega (as_lay l1 :: as_lay l2 :: as_lay l3 :: map as_lay ls) v) with
      (v :: waves omega (as_lay l2 :: as_lay l3 :: map as_lay ls) (step omega (as_lay l1) (as_lay l2) v)).
    rewrite final_cons. reflexivity.
Qed.

Definition wsum (w : C * C) : C := Cplus (fst w) (snd w).
Lemma waves_length omega : forall ls v, length (waves omega ls v) = length ls.
Proof. induction ls as [|l1 ls IH]; intros v; [reflexivity|]. destruct ls as [|l2 ls]; [reflexivity|]. cbn [waves length]. f_equal. apply IH. Qed.
Lemma last_nth_l {A} (l : list A) d : last l d = nth (length l - 1) l d.
Proof.
  induction l as [|a l IH]; [reflexivity|]. destruct l as [|b l]; [reflexivity|]. change (last (a :: b :: l) d) with (last (b :: l) d).
  rewrite IH. cbn [length]. replace (S (S (length l)) - 1)%nat with (S (S (length l) - 1)) by lia. reflexivity.
Qed.

Lemma H_elastic omega ls k : Forall e_ok ls -> ls <> [] ->
  H_at omega ls (ratios ls) k =
  Cdiv (wsum (nth k (waves omega (map as_lay ls) one2) (RtoC 0, RtoC 0))) (fst (final omega (map as_lay ls) one2)).
Proof.
  intros F N. unfold H_at. pose proof (amps_elastic omega ls one2 F N) as E. unfold one2 in E at 1 2. cbn [fst snd] in E. rewrite E.
  rewrite last_nth_l, waves_length, waves_last by (destruct ls; [congruence|discriminate]). reflexivity.
Qed.
Lemma nth_removelast {A} (l : list A) k d : (k < length l - 1)%nat -> nth k (removelast l) d = nth k l d.
Proof.
  intros H. destruct (exists_last (l:=l)) as (i & x & ->); [destruct l; cbn in H; [lia|discriminate]|]. rewrite removelast_last.
  rewrite app_length in H. cbn in H. rewrite app_nth1 by lia. reflexivity.
Qed.
Lemma removelast_length {A} (l : list A) : length (removelast l) = (length l - 1)%nat.
Proof. induction l as [|a l IH]; [reflexivity|]. destruct l as [|b l]; [reflexivity|]. cbn [removelast length] in *. rewrite IH. lia. Qed.

Lemma H_rigid omega ls k : Forall e_ok ls -> (2 <= length ls)%nat -> (k < length ls)%nat ->
  wsum (final omega (map as_lay ls) one2) <> RtoC 0 ->
  H_at omega ls (removelast (ratios ls) ++ [RtoC 0]) k =
  Cdiv (Cmult (RtoC 2) (wsum (nth k (waves omega (map as_lay ls) one2) (RtoC 0, RtoC 0)))) (wsum (final omega (map as_lay ls) one2)).
Proof.
  intros F N K Z. unfold H_at. pose proof (amps_rigid omega ls one2 F N) as E. unfold one2 in E at 1 2. cbn [fst snd] in E. rewrite E.
  rewrite last_last. set (ws := waves omega (map as_lay ls) one2). set (fin := final omega (map as_lay ls) one2) in *.
  assert (LW : length ws = length ls) by (unfold ws; rewrite waves_length, map_length; reflexivity).
  assert (EN : wsum (nth k (removelast ws ++ [half_base fin]) (RtoC 0, RtoC 0)) = wsum (nth k ws (RtoC 0, RtoC 0))).
  { destruct (Nat.eq_dec k (length ls - 1)) as [->|D].
    - rewrite app_nth2 by (rewrite removelast_length; lia). rewrite removelast_length, LW, Nat.sub_diag. cbn [nth].
      assert (EW : nth (length ls - 1) ws (RtoC 0, RtoC 0) = fin).
      { unfold ws, fin. rewrite <- (map_length as_lay ls). apply waves_last. destruct ls; [cbn in N; lia|discriminate]. }
      rewrite EW. unfold wsum, half_base. cbn [fst snd].
      assert (HH : Cplus (RtoC (1 / 2)) (RtoC (1 / 2)) = RtoC 1) by (rewrite <- RtoC_plus; f_equal; field).
      rewrite <- Cmult_plus_distr_r, HH. ring.
    - rewrite app_nth1 by (rewrite removelast_length; lia). rewrite nth_removelast by lia. reflexivity. }
  unfold wsum in EN. rewrite EN. unfold half_base. cbn [fst snd]. fold (wsum (nth k ws (RtoC 0, RtoC 0))). fold (wsum fin).
  assert (HH : RtoC (1 / 2) = Cinv (RtoC 2)) by (rewrite <- RtoC_inv by lra; f_equal; field). rewrite HH.
  assert (T2 : RtoC 2 = Cplus (RtoC 1) (RtoC 1)) by (rewrite <- RtoC_plus; f_equal; ring).
  field. split; [exact Z|]. apply RtoC_neq. lra.
Qed.

(** ** The sampled transfer functions *)
Lemma map_nth' {A B} (f : A -> B) l i d d' : (i < length l)%nat -> nth i (map f l) d' = f (nth i l d).
Proof. intros H. transitivity (nth i (map f l) (f d)); [apply nth_indep; rewrite map_length; exact H|apply map_nth]. Qed.

Lemma dense_nth N dt i : (1 <= N)%nat -> (i < N * 15)%nat -> nth i (dense_freq N dt) 0 = (INR i + 1) / 15 / (INR N * dt).
Proof.
  intros HN Hi. unfold dense_freq, linspace, oversample. rewrite nth_map_seq by exact Hi.
  destruct (Nat.eqb_spec (N * 15) 1) as [E|_]; [lia|].
  replace (S (N - 1)) with N by lia. rewrite minus_INR by lia. rewrite mult_INR. set (x := INR N * dt).
  change (INR 15) with (INR 15). replace (INR 15) with 15 by (cbn; ring). replace (INR 1) with 1 by reflexivity. replace (INR 2) with 2 by (cbn; ring).
  assert (1 <= INR N) by (change 1 with (INR 1); apply le_INR, HN). unfold Rdiv. generalize (/ x). intros y. field. lra.
Qed.
Lemma dense_length N dt : length (dense_freq N dt) = (N * 15)%nat.
Proof. unfold dense_freq, linspace. rewrite map_length, seq_length. reflexivity. Qed.

(** Circular frequency at which bin [m] is evaluated. *)
Definition bin_omega (N : nat) (dt : R) (m : nat) : R := 2 * PI * ((INR m + 1 / 15) / (INR N * dt)).
Lemma bin_omega_pos N dt m : (1 <= N)%nat -> 0 < dt -> 0 < bin_omega N dt m.
Proof.
  intros HN Hd. unfold bin_omega. pose proof PI_RGT_0. pose proof (pos_INR m). assert (0 < INR N) by (apply lt_0_INR; lia).
  apply Rmult_lt_0_compat; [lra|]. apply Rdiv_lt_0_compat; [lra|]. apply Rmult_lt_0_compat; assumption.
Qed.

Section Column.
  Context (N : nat) (dt : R) (ls : list elay) (al : list C) (k : nat).
  Context (HN : Nat.Odd N).
  Let half := ((N * oversample + 1) / 2)%nat.
  Let F i := H_at (2 * PI * ((INR i + 1) / 15 / (INR N * dt))) ls al k.
  Let ss := set_real_head (map (fun f => H_at (2 * PI * f) ls al k) (firstn half (dense_freq N dt))).

  Lemma half_eq : (2 * half = N * 15 + 1)%nat.
  Proof.
    destruct HN as [j Hj]. unfold half, oversample. replace (N * 15 + 1)%nat with ((15 * j + 8) * 2)%nat by lia. rewrite Nat.div_mul by lia. lia.
  Qed.
  Lemma ss_length : length ss = half.
  Proof.
    pose proof half_eq as E. unfold ss. destruct HN as [j Hj].
    assert (L : length (firstn half (dense_freq N dt)) = half) by (rewrite firstn_length, dense_length; lia).
    destruct (firstn half (dense_freq N dt)) as [|f fs]; [cbn in L |- *; exact L|]. cbn [map set_real_head length] in *. rewrite map_length. exact L.
  Qed.
  Lemma ss_nth i : (0 < i < half)%nat -> nth i ss (RtoC 0) = F i.
  Proof.
    intros Hi. pose proof half_eq as E. destruct HN as [j Hj].
    assert (L : length (firstn half (dense_freq N dt)) = half) by (rewrite firstn_length, dense_length; lia).
    assert (G : nth i (map (fun f => H_at (2 * PI * f) ls al k) (firstn half (dense_freq N dt))) (RtoC 0) = F i).
    { rewrite (map_nth' _ _ i 0) by lia. unfold F. f_equal. f_equal. rewrite <- (dense_nth N dt i) by lia.
      rewrite <- (firstn_skipn half (dense_freq N dt)) at 2. rewrite app_nth1 by lia. reflexivity. }
    unfold ss. destruct (map (fun f => H_at (2 * PI * f) ls al k) (firstn half (dense_freq N dt))) as [|z zs]; [exact G|]. destruct i as [|i]; [lia|]. exact G.
  Qed.
  Lemma ss_0 : nth 0 ss (RtoC 0) = RtoC (Re (F 0)).
  Proof.
    pose proof half_eq as E. destruct HN as [j Hj].
    assert (L : length (firstn half (dense_freq N dt)) = half) by (rewrite firstn_length, dense_length; lia).
    assert (G : nth 0 (map (fun f => H_at (2 * PI * f) ls al k) (firstn half (dense_freq N dt))) (RtoC 0) = F 0).
    { rewrite (map_nth' _ _ 0%nat 0) by lia. unfold F. f_equal. f_equal. rewrite <- (dense_nth N dt 0) by lia.
      rewrite <- (firstn_skipn half (dense_freq N dt)) at 2. rewrite app_nth1 by lia. reflexivity. }
    unfold ss. destruct (map (fun f => H_at (2 * PI * f) ls al k) (firstn half (dense_freq N dt))) as [|z zs] eqn:Em.
    - apply (f_equal (@length C)) in Em. rewrite map_length, L in Em. change (length (@nil C)) with 0%nat in Em. lia.
    - cbn [set_real_head nth] in *. rewrite <- G. reflexivity.
  Qed.

  Lemma full_length : length (ss ++ map Cconj (rev (tl ss))) = (N * 15)%nat.
  Proof.
    pose proof half_eq as E. rewrite app_length, map_length, rev_length. assert (length (tl ss) = half - 1)%nat by (rewrite <- ss_length; destruct ss; cbn; lia).
    rewrite ss_length. lia.
  Qed.
  Lemma full_mirror i : (0 < i < half)%nat -> nth (N * 15 - i) (ss ++ map Cconj (rev (tl ss))) (RtoC 0) = Cconj (nth i ss (RtoC 0)).
  Proof.
    intros Hi. pose proof half_eq as E. assert (LT : length (tl ss) = (half - 1)%nat) by (rewrite <- ss_length; destruct ss; cbn; lia).
    rewrite app_nth2 by (rewrite ss_length; lia). rewrite ss_length. rewrite (map_nth' _ _ _ (RtoC 0)) by (rewrite rev_length; lia).
    f_equal. rewrite rev_nth by lia. rewrite LT. replace (half - 1 - S (N * 15 - i - half))%nat with (i - 1)%nat by lia.
    destruct i as [|i]; [lia|]. replace (S i - 1)%nat with i by lia. destruct ss; [destruct i|]; reflexivity.
  Qed.

  Lemma H_col_length : length (H_col N dt ls al k) = N.
  Proof.
    unfold H_col. fold half. fold ss. pose proof full_length as FL.
    assert (Q : forall i, (i < length (every oversample (ss ++ map Cconj (rev (tl ss)))) <-> i < N)%nat).
    { intros i. rewrite every_lt by (unfold oversample; lia). rewrite FL. unfold oversample. lia. }
    pose proof (Q N). pose proof (Q (length (every oversample (ss ++ map Cconj (rev (tl ss)))))). lia.
  Qed.
  Lemma H_col_low m : (0 < m)%nat -> (2 * m < N)%nat -> nth m (H_col N dt ls al k) (RtoC 0) = H_at (bin_omega N dt m) ls al k.
  Proof.
    intros H0 H1. pose proof half_eq as E. unfold H_col. fold half. fold ss. rewrite every_nth by (unfold oversample; lia). unfold oversample.
    rewrite app_nth1 by (rewrite ss_length; lia). rewrite ss_nth by lia. unfold F, bin_omega. f_equal. f_equal. rewrite mult_INR.
    replace (INR 15) with 15 by (cbn; ring). unfold Rdiv. generalize (/ (INR N * dt)). intros y. field.
  Qed.
  Lemma H_col_0 : nth 0 (H_col N dt ls al k) (RtoC 0) = RtoC (Re (H_at (bin_omega N dt 0) ls al k)).
  Proof.
    pose proof half_eq as E. unfold H_col. fold half. fold ss. rewrite every_nth by (unfold oversample; lia). cbn [Nat.mul].
    rewrite app_nth1 by (rewrite ss_length; lia). rewrite ss_0. unfold F, bin_omega. do 4 f_equal. cbn [INR]. unfold Rdiv. ring.
  Qed.
  Lemma H_col_mirror m : (0 < m < N)%nat -> nth (N - m) (H_col N dt ls al k) (RtoC 0) = Cconj (nth m (H_col N dt ls al k) (RtoC 0)).
  Proof.
    pose proof half_eq as E. destruct HN as [j Hj].
    assert (LOW : forall m, (0 < m)%nat -> (2 * m < N)%nat -> nth (N - m) (H_col N dt ls al k) (RtoC 0) = Cconj (nth m (H_col N dt ls al k) (RtoC 0))).
    { intros i H0 H1. unfold H_col. fold half. fold ss. rewrite !every_nth by (unfold oversample; lia). unfold oversample.
      replace ((N - i) * 15)%nat with (N * 15 - i * 15)%nat by lia. rewrite full_mirror by lia. f_equal.
      rewrite app_nth1 by (rewrite ss_length; lia). reflexivity. }
    intros Hm. destruct (Nat.lt_ge_cases (2 * m) N) as [L|L]; [apply LOW; lia|].
    assert (X := LOW (N - m)%nat ltac:(lia) ltac:(lia)). replace (N - (N - m))%nat with m in X by lia. rewrite X, Cconj_invol. reflexivity.
  Qed.
  Lemma H_col_symmetric : symmetric (H_col N dt ls al k).
  Proof.
    split.
    - intros _. rewrite H_col_0. apply Cconj_R.
    - intros m Hm. rewrite H_col_length in *. apply H_col_mirror, Hm.
  Qed.
End Column.

(** ** Accelerations *)
Definition cmul (X Y : list C) : list C := map (fun p => Cmult (fst p) (snd p)) (combine X Y).
Lemma cmul_length X Y : length X = length Y -> length (cmul X Y) = length X.
Proof. intros H. unfold cmul. rewrite map_length, combine_length. lia. Qed.
Lemma cmul_nth X Y i : length X = length Y -> (i < length X)%nat -> nth i (cmul X Y) (RtoC 0) = Cmult (nth i X (RtoC 0)) (nth i Y (RtoC 0)).
Proof.
  intros L H. unfold cmul. rewrite (map_nth' _ _ i (RtoC 0, RtoC 0)) by (rewrite combine_length; lia). rewrite combine_nth by exact L. reflexivity.
Qed.
Lemma cmul_symmetric X Y : length X = length Y -> symmetric X -> symmetric Y -> symmetric (cmul X Y).
Proof.
  intros L [X0 X1] [Y0 Y1]. split.
  - intros H. assert (P : (0 < length X)%nat) by (rewrite <- (cmul_length X Y L); destruct (cmul X Y); [congruence|cbn; lia]).
    rewrite cmul_nth by assumption. rewrite Cconj_mult, X0, Y0; [reflexivity| |]; intros E; subst; cbn in *; lia.
  - intros m Hm. rewrite cmul_length in * by exact L. rewrite !cmul_nth by (try exact L; lia). rewrite Cconj_mult, X1 by exact Hm. f_equal. rewrite L in *. apply Y1, Hm.
Qed.
Lemma real_idft Z : symmetric Z -> map RtoC (map Re (idft Z)) = idft Z.
Proof.
  intros H. rewrite map_map. apply list_eq_nth; [apply map_length|]. intros i Hi. rewrite map_length in Hi.
  rewrite (map_nth' _ _ i (RtoC 0)) by exact Hi. symmetry. apply conj_real. rewrite idft_length in Hi. apply idft_symmetric_real; assumption.
Qed.
Lemma accel_spectrum H A : length H = length A -> symmetric H -> symmetric A -> dft (map RtoC (accel_col H A)) = cmul H A.
Proof.
  intros L SH SA. unfold accel_col. fold (cmul H A). rewrite real_idft by (apply cmul_symmetric; assumption). apply dft_idft.
Qed.
Lemma accel_length H A : length H = length A -> length (accel_col H A) = length A.
Proof. intros L. unfold accel_col. fold (cmul H A). rewrite map_length, idft_length, cmul_length by exact L. exact L. Qed.
