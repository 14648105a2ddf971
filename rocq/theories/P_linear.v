(** Complex square roots and exponentials, and the waves of a layered column. *)
From Coq Require Import Reals List Bool ZArith Lia Lra Psatz.
From Coquelicot Require Import Coquelicot.
From Coq Require Import List.
From Verif Require Import Base M_dft P_dft M_linear.
Import ListNotations.
Open Scope R_scope.

(** ** Complex numbers *)
Lemma C_eq (a b : C) : Re a = Re b -> Im a = Im b -> a = b.
Proof. destruct a, b. cbn. intros -> ->. reflexivity. Qed.
Lemma RtoC_neq a b : a <> b -> RtoC a <> RtoC b.
Proof. intros H E. apply H. apply RtoC_inj, E. Qed.
Lemma Cmod_sq (z : C) : Cmod z * Cmod z = Re z * Re z + Im z * Im z.
Proof. unfold Cmod. rewrite sqrt_sqrt; [destruct z; cbn; ring|]. destruct z; cbn. nra. Qed.
Lemma Cmod_Re_le (z : C) : Rabs (Re z) <= Cmod z.
Proof.
  apply Rsqr_incr_0_var; [|apply Cmod_ge_0]. rewrite <- Rsqr_abs. unfold Rsqr. rewrite Cmod_sq. nra.
Qed.
Lemma Cmod_Im_le (z : C) : Rabs (Im z) <= Cmod z.
Proof.
  apply Rsqr_incr_0_var; [|apply Cmod_ge_0]. rewrite <- Rsqr_abs. unfold Rsqr. rewrite Cmod_sq. nra.
Qed.
Lemma Re_mult a b : Re (Cmult a b) = Re a * Re b - Im a * Im b.
Proof. reflexivity. Qed.
Lemma Im_mult a b : Im (Cmult a b) = Re a * Im b + Im a * Re b.
Proof. reflexivity. Qed.
Lemma Re_plus a b : Re (Cplus a b) = Re a + Re b.
Proof. reflexivity. Qed.
Lemma Im_plus a b : Im (Cplus a b) = Im a + Im b.
Proof. reflexivity. Qed.
Lemma Re_R x : Re (RtoC x) = x.
Proof. reflexivity. Qed.
Lemma Im_R x : Im (RtoC x) = 0.
Proof. reflexivity. Qed.
Lemma C_integral a b : Cmult a b = RtoC 0 -> a = RtoC 0 \/ b = RtoC 0.
Proof.
  intros H. assert (E : Cmod a * Cmod b = 0) by (rewrite <- Cmod_mult, H; apply Cmod_0).
  apply Rmult_integral in E as [E|E]; [left|right]; apply Cmod_eq_0, E.
Qed.

(** ** Square roots *)
Lemma csqrt_sq z : Cmult (csqrt z) (csqrt z) = z.
Proof.
  pose proof (Cmod_sq z) as M. pose proof (Cmod_Re_le z) as L.
  assert (P : 0 <= (Cmod z + Re z) / 2) by (pose proof (Rle_abs (- Re z)) as A; rewrite Rabs_Ropp in A; lra).
  assert (Q : 0 <= (Cmod z - Re z) / 2) by (pose proof (Rle_abs (Re z)) as A; lra).
  set (s := if Rltb (Im z) 0 then -1 else 1). assert (S2 : s * s = 1) by (unfold s; destruct Rltb; ring).
  apply C_eq; unfold csqrt; fold s.
  - cbn [Cmult Re Im fst snd]. unfold Re in *. cbn [fst snd Cmult] in *.
    replace (s * sqrt ((Cmod z - fst z) / 2) * (s * sqrt ((Cmod z - fst z) / 2))) with (s * s * (sqrt ((Cmod z - fst z) / 2) * sqrt ((Cmod z - fst z) / 2))) by ring.
    rewrite !sqrt_sqrt by assumption. rewrite S2. lra.
  - unfold Im, Re in *. cbn [Cmult fst snd].
    replace (sqrt ((Cmod z + fst z) / 2) * (s * sqrt ((Cmod z - fst z) / 2)) + s * sqrt ((Cmod z - fst z) / 2) * sqrt ((Cmod z + fst z) / 2))
      with (2 * s * (sqrt ((Cmod z + fst z) / 2) * sqrt ((Cmod z - fst z) / 2))) by ring.
    rewrite <- sqrt_mult by assumption.
    replace ((Cmod z + fst z) / 2 * ((Cmod z - fst z) / 2)) with (Rsqr (snd z / 2)) by (unfold Rsqr; nra).
    rewrite sqrt_Rsqr_abs. unfold s. unfold Rabs. destruct (Rltb_spec (snd z) 0); destruct Rcase_abs; lra.
Qed.

Lemma csqrt_Re z : 0 <= Re (csqrt z).
Proof. apply sqrt_pos. Qed.

Lemma csqrt_scale c z : 0 < c -> csqrt (Cmult (RtoC (c * c)) z) = Cmult (RtoC c) (csqrt z).
Proof.
  intros Hc.
  assert (M : Cmod (Cmult (RtoC (c * c)) z) = c * c * Cmod z).
  { rewrite Cmod_mult, Cmod_R, Rabs_pos_eq by nra. reflexivity. }
  assert (E1 : Re (Cmult (RtoC (c * c)) z) = c * c * Re z) by (rewrite Re_mult; cbn; ring).
  assert (E2 : Im (Cmult (RtoC (c * c)) z) = c * c * Im z) by (rewrite Im_mult; cbn; ring).
  unfold csqrt. rewrite M, E1, E2.
  assert (S : forall x, sqrt (c * c * x) = c * sqrt x).
  { intros x. destruct (Rle_dec 0 x).
    - rewrite sqrt_mult by nra. rewrite sqrt_square by lra. reflexivity.
    - rewrite (sqrt_neg_0 x), (sqrt_neg_0 (c * c * x)) by nra. ring. }
  replace ((c * c * Cmod z + c * c * Re z) / 2) with (c * c * ((Cmod z + Re z) / 2)) by field.
  replace ((c * c * Cmod z - c * c * Re z) / 2) with (c * c * ((Cmod z - Re z) / 2)) by field.
  rewrite !S.
  replace (Rltb (c * c * Im z) 0) with (Rltb (Im z) 0).
  2:{ assert (cc : 0 < c * c) by nra. set (d := c * c) in *. set (y := Im z). clearbody d y.
      destruct (Rltb_spec y 0), (Rltb_spec (d * y) 0); try reflexivity; exfalso; nra. }
  unfold Cmult, RtoC. cbn [fst snd]. f_equal; ring.
Qed.

(** The root of [1 + 2 i xi]. *)
Definition damp (xi : R) : C := Cplus (RtoC 1) (Cmult (RtoC 2) (Cmult Ci (RtoC xi))).
Lemma damp_Re xi : Re (damp xi) = 1.
Proof. unfold damp, Ci, Cplus, Cmult, RtoC, Re. cbn. ring. Qed.
Lemma damp_Im xi : Im (damp xi) = 2 * xi.
Proof. unfold damp, Ci, Cplus, Cmult, RtoC, Im. cbn. ring. Qed.
Lemma damp_root xi : 0 <= xi -> 0 < Re (csqrt (damp xi)) /\ 0 <= Im (csqrt (damp xi)) /\ (0 < xi -> 0 < Im (csqrt (damp xi))).
Proof.
  intros H. pose proof (Cmod_ge_0 (damp xi)) as M0. pose proof (Cmod_sq (damp xi)) as M. rewrite damp_Re, damp_Im in M.
  assert (M1 : 1 <= Cmod (damp xi)) by nra.
  unfold csqrt. rewrite damp_Re, damp_Im. unfold Re, Im. cbn [fst snd].
  destruct (Rltb_spec (2 * xi) 0) as [N|N]; [lra|]. repeat split.
  - apply sqrt_lt_R0. lra.
  - rewrite Rmult_1_l. apply sqrt_pos.
  - intros P. rewrite Rmult_1_l. apply sqrt_lt_R0. nra.
Qed.

(** ** Exponentials *)
Lemma cexp_plus a b : cexp (Cplus a b) = Cmult (cexp a) (cexp b).
Proof. unfold cexp. rewrite Re_plus, Im_plus, exp_plus, cis_plus, RtoC_mult. ring. Qed.
Lemma cexp_0 : cexp (RtoC 0) = RtoC 1.
Proof. unfold cexp. cbn [Re Im RtoC fst snd]. rewrite exp_0, cis_0. ring. Qed.
Lemma cexp_inv a : Cmult (cexp a) (cexp (Copp a)) = RtoC 1.
Proof. rewrite <- cexp_plus. replace (Cplus a (Copp a)) with (RtoC 0) by ring. apply cexp_0. Qed.
Lemma cexp_neq_0 a : cexp a <> RtoC 0.
Proof. intros E. pose proof (cexp_inv a) as H. rewrite E, Cmult_0_l in H. apply RtoC_inj in H. lra. Qed.

(** ** Layers *)
Definition phys (l : lay) : Prop := 0 < l_vs l /\ 0 < l_rho l /\ 0 <= l_xi l /\ 0 <= l_h l.

Lemma vs_star_eq l : vs_star l = Cmult (RtoC (l_vs l)) (csqrt (damp (l_xi l))).
Proof. reflexivity. Qed.
Lemma vs_star_Re l : phys l -> 0 < Re (vs_star l).
Proof. intros (V & _ & X & _). rewrite vs_star_eq, Re_mult. destruct (damp_root (l_xi l) X) as (P & _). rewrite Re_R, Im_R. nra. Qed.
Lemma vs_star_Im l : phys l -> 0 <= Im (vs_star l).
Proof. intros (V & _ & X & _). rewrite vs_star_eq, Im_mult. destruct (damp_root (l_xi l) X) as (_ & P & _). rewrite Re_R, Im_R. nra. Qed.
Lemma vs_star_Im_pos l : phys l -> 0 < l_xi l -> 0 < Im (vs_star l).
Proof. intros (V & _ & X & _) Y. rewrite vs_star_eq, Im_mult. destruct (damp_root (l_xi l) X) as (_ & _ & P). specialize (P Y). rewrite Re_R, Im_R. nra. Qed.
Lemma vs_star_neq l : phys l -> vs_star l <> RtoC 0.
Proof. intros P E. pose proof (vs_star_Re l P) as H. rewrite E in H. cbn in H. lra. Qed.

(** Complex impedance and modulus. *)
Definition imp (l : lay) : C := Cmult (RtoC (l_rho l)) (vs_star l).
Lemma imp_neq l : phys l -> imp l <> RtoC 0.
Proof.
  intros P E. apply C_integral in E as [E|E]; [|apply (vs_star_neq l P), E].
  destruct P as (_ & R0 & _). apply RtoC_inj in E. lra.
Qed.

(** [k * Z] is the real number [omega * rho]. *)
Lemma k_imp omega l : phys l -> Cmult (k_star omega l) (imp l) = RtoC (omega * l_rho l).
Proof. intros P. unfold k_star, imp. rewrite RtoC_mult. field. apply vs_star_neq, P. Qed.

Lemma k_star_parts omega l : phys l -> 0 < omega ->
  0 < Re (k_star omega l) /\ Im (k_star omega l) <= 0 /\ (0 < l_xi l -> Im (k_star omega l) < 0).
Proof.
  intros P W. pose proof (vs_star_Re l P) as A. pose proof (vs_star_Im l P) as B. pose proof (vs_star_Im_pos l P) as Bp.
  assert (E : Cmult (k_star omega l) (vs_star l) = RtoC omega) by (unfold k_star; field; apply vs_star_neq, P).
  pose proof (f_equal Re E) as E1. pose proof (f_equal Im E) as E2. rewrite Re_mult in E1. rewrite Im_mult in E2. cbn [Re Im RtoC fst snd] in E1, E2.
  unfold Re, Im in *. set (a := fst (vs_star l)) in *. set (b := snd (vs_star l)) in *. set (x := fst (k_star omega l)) in *. set (y := snd (k_star omega l)) in *.
  (* x a - y b = w ; x b + y a = 0 *)
  assert (T : x * (a * a + b * b) = a * omega).
  { assert (T : b * (x * b + y * a) = 0) by (rewrite E2; ring). rewrite <- E1. lra. }
  assert (X : 0 < x).
  { destruct (Rlt_dec 0 x); [assumption|]. exfalso. assert (0 < a * omega) by nra. assert (0 < a * a + b * b) by nra. nra. }
  clear T. clearbody a b x y.
  assert (Q : y * a = - (x * b)) by lra. assert (N : y <= 0) by (destruct (Rle_dec y 0); [assumption|]; exfalso; nra).
  repeat split; [exact X|exact N|]. intros Y. specialize (Bp Y). destruct (Rlt_dec y 0); [assumption|]. exfalso. nra.
Qed.

(** ** One layer: amplitudes at its top and at its bottom *)
Definition at_bottom (omega : R) (l : lay) (v : C * C) : C * C :=
  (Cmult (fst v) (cexp (Cmult (Cmult Ci (k_star omega l)) (RtoC (l_h l)))),
   Cmult (snd v) (cexp (Cmult (Cmult (Copp Ci) (k_star omega l)) (RtoC (l_h l))))).
Definition step (omega : R) (l1 l2 : lay) (v : C * C) : C * C :=
  let (a, b) := at_bottom omega l1 v in
  let al := alpha_star l1 l2 in
  (Cmult (RtoC (1 / 2)) (Cplus (Cmult (Cplus (RtoC 1) al) a) (Cmult (Cminus (RtoC 1) al) b)),
   Cmult (RtoC (1 / 2)) (Cplus (Cmult (Cminus (RtoC 1) al) a) (Cmult (Cplus (RtoC 1) al) b))).
Definition mapply (m : mat) (v : C * C) : C * C :=
  (Cplus (Cmult (m00 m) (fst v)) (Cmult (m01 m) (snd v)), Cplus (Cmult (m10 m) (fst v)) (Cmult (m11 m) (snd v))).

Lemma mapply_mul a b v : mapply (mmul a b) v = mapply a (mapply b v).
Proof. unfold mapply, mmul. cbn [m00 m01 m10 m11 fst snd]. f_equal; ring. Qed.
Lemma mapply_id v : mapply mid v = v.
Proof. destruct v. unfold mapply, mid. cbn [m00 m01 m10 m11 fst snd]. f_equal; ring. Qed.
Lemma mapply_D omega l1 l2 v : mapply (Dmat omega l1 l2) v = step omega l1 l2 v.
Proof. unfold mapply, Dmat, step, at_bottom. cbn [m00 m01 m10 m11 fst snd]. f_equal; ring. Qed.

Lemma Emat_cons omega l1 l2 rest : Emat omega (l1 :: l2 :: rest) = mmul (Emat omega (l2 :: rest)) (Dmat omega l1 l2).
Proof. unfold Emat. cbn [tl combine rev]. rewrite fold_left_app. reflexivity. Qed.
Lemma Emat_single omega l : Emat omega [l] = mid.
Proof. reflexivity. Qed.

(** The amplitudes in the last layer, and in all layers. *)
Fixpoint final (omega : R) (ls : list lay) (v : C * C) : C * C :=
  match ls with
  | [] => v
  | l1 :: rest => match rest with [] => v | l2 :: _ => final omega rest (step omega l1 l2 v) end
  end.
Fixpoint waves (omega : R) (ls : list lay) (v : C * C) : list (C * C) :=
  match ls with
  | [] => []
  | l1 :: rest => v :: match rest with [] => [] | l2 :: _ => waves omega rest (step omega l1 l2 v) end
  end.
Lemma final_cons omega l1 l2 rest v : final omega (l1 :: l2 :: rest) v = final omega (l2 :: rest) (step omega l1 l2 v).
Proof. reflexivity. Qed.
Lemma Emat_final omega ls v : ls <> [] -> mapply (Emat omega ls) v = final omega ls v.
Proof.
  revert v. induction ls as [|l1 ls IH]; intros v H; [congruence|]. destruct ls as [|l2 ls].
  - rewrite Emat_single. apply mapply_id.
  - rewrite Emat_cons, mapply_mul, mapply_D, final_cons. apply IH. discriminate.
Qed.
Definition one2 : C * C := (RtoC 1, RtoC 1).
Lemma Emat_sums omega ls : ls <> [] ->
  Cplus (m00 (Emat omega ls)) (m01 (Emat omega ls)) = fst (final omega ls one2) /\
  Cplus (Cplus (Cplus (m00 (Emat omega ls)) (m10 (Emat omega ls))) (m01 (Emat omega ls))) (m11 (Emat omega ls))
    = Cplus (fst (final omega ls one2)) (snd (final omega ls one2)).
Proof. intros H. rewrite <- (Emat_final omega ls one2 H). unfold mapply, one2. cbn [fst snd]. split; ring. Qed.

Lemma step_continuity omega l1 l2 v : phys l1 -> phys l2 ->
  let (a, b) := at_bottom omega l1 v in
  let (A, B) := step omega l1 l2 v in
  Cplus A B = Cplus a b /\ Cmult (imp l2) (Cminus A B) = Cmult (imp l1) (Cminus a b).
Proof.
  intros P1 P2. unfold step. destruct (at_bottom omega l1 v) as [a b].
  assert (T2 : RtoC 2 = Cplus (RtoC 1) (RtoC 1)) by (rewrite <- RtoC_plus; f_equal; ring).
  assert (H2 : Cmult (RtoC (1 / 2)) (RtoC 2) = RtoC 1) by (rewrite <- RtoC_mult; f_equal; field).
  split.
  - transitivity (Cmult (Cmult (RtoC (1 / 2)) (RtoC 2)) (Cplus a b)); [|rewrite H2; ring]. rewrite T2. ring.
  - transitivity (Cmult (Cmult (RtoC (1 / 2)) (RtoC 2)) (Cmult (Cmult (imp l2) (alpha_star l1 l2)) (Cminus a b))); [rewrite T2; ring|].
    rewrite H2. unfold alpha_star. fold (imp l1) (imp l2).
    replace (Cmult (imp l2) (Cdiv (imp l1) (imp l2))) with (imp l1) by (field; apply imp_neq, P2). ring.
Qed.

(** ** Energy flux *)
Lemma sinh_ge x : 0 <= x -> 2 * x <= exp x - exp (- x) /\ (0 < x -> 2 * x < exp x - exp (- x)).
Proof.
  intros [P|<-].
  2:{ rewrite Ropp_0, exp_0. split; intros; lra. }
  assert (H : 2 * x < exp x - exp (- x)).
  { destruct (MVT_cor2 (fun t => exp t - exp (- t) - 2 * t) (fun t => exp t + exp (- t) - 2) 0 x P) as (c & E & L & U).
    - intros c _. apply is_derive_Reals. auto_derive; [exact I|]. ring.
    - rewrite Ropp_0, exp_0 in E.
      assert (M : exp c * exp (- c) = 1) by (rewrite <- exp_plus, Rplus_opp_r; apply exp_0).
      assert (G : 1 < exp c) by (rewrite <- exp_0; apply exp_increasing, L).
      assert (K : 0 < exp c + exp (- c) - 2) by (pose proof (exp_pos (- c)); nra). nra. }
  split; intros; lra.
Qed.

Definition flux (Z : C) (v : C * C) : R := Re (Cmult Z (Cmult (Cminus (fst v) (snd v)) (Cconj (Cplus (fst v) (snd v))))).
Definition nsq (z : C) : R := Re z * Re z + Im z * Im z.

Lemma flux_form Z A B : flux Z (A, B) = Re Z * (nsq A - nsq B) - 2 * Im Z * (Im A * Re B - Re A * Im B).
Proof. unfold flux, nsq, Cmult, Cminus, Cplus, Copp, Cconj, Re, Im. cbn [fst snd]. ring. Qed.

Lemma flux_real p q kr kp h a1 a2 b1 b2 :
  0 < p -> 0 <= q -> 0 < kr -> 0 <= kp -> 0 <= h -> kp * p = kr * q ->
  let E := exp (kp * h) in let E' := exp (- (kp * h)) in let c := cos (kr * h) in let s := sin (kr * h) in
  let N a b := a * a + b * b in
  let D := p * (N a1 a2 * (E * E - 1) + N b1 b2 * (1 - E' * E')) - 4 * q * s * ((a1 * b1 + a2 * b2) * c - (a2 * b1 - a1 * b2) * s) in
  0 <= D /\ (0 < kp * h -> 0 < N a1 a2 + N b1 b2 -> 0 < D).
Proof.
  intros Hp Hq Hkr Hkp Hh Hb E E' c s N D.
  assert (X0 : 0 <= kp * h) by nra. destruct (sinh_ge _ X0) as [S1 S2]. fold E E' in S1, S2.
  assert (PE : 0 < E) by apply exp_pos. assert (PE' : 0 < E') by apply exp_pos.
  assert (EE : E * E' = 1) by (unfold E, E'; rewrite <- exp_plus, Rplus_opp_r; apply exp_0).
  assert (NA : 0 <= N a1 a2) by (unfold N; nra). assert (NB : 0 <= N b1 b2) by (unfold N; nra).
  set (ra := sqrt (N a1 a2)). set (rb := sqrt (N b1 b2)).
  assert (Ra : ra * ra = N a1 a2) by (apply sqrt_sqrt, NA). assert (Rb : rb * rb = N b1 b2) by (apply sqrt_sqrt, NB).
  assert (Ra0 : 0 <= ra) by apply sqrt_pos. assert (Rb0 : 0 <= rb) by apply sqrt_pos.
  set (X := N a1 a2 * E + N b1 b2 * E').
  assert (X2 : 2 * (ra * rb) <= X).
  { set (g := exp (kp * h / 2)). set (g' := exp (- (kp * h / 2))).
    assert (gE : g * g = E) by (unfold g, E; rewrite <- exp_plus; f_equal; field).
    assert (gE' : g' * g' = E') by (unfold g', E'; rewrite <- exp_plus; f_equal; field).
    assert (gg : g * g' = 1) by (unfold g, g'; rewrite <- exp_plus, Rplus_opp_r; apply exp_0).
    unfold X. rewrite <- gE, <- gE', <- Ra, <- Rb.
    assert (Q : 0 <= (ra * g - rb * g') * (ra * g - rb * g')) by apply Rle_0_sqr.
    replace (ra * rb) with (ra * rb * (g * g')) by (rewrite gg; ring). lra. }
  assert (CS : Rabs ((a1 * b1 + a2 * b2) * c - (a2 * b1 - a1 * b2) * s) <= ra * rb).
  { apply Rsqr_incr_0_var; [|nra]. rewrite <- Rsqr_abs. unfold Rsqr.
    replace (ra * rb * (ra * rb)) with (N a1 a2 * N b1 b2) by (rewrite <- Ra, <- Rb; ring).
    pose proof (sin2_cos2 (kr * h)) as SC. unfold Rsqr in SC. fold s c in SC.
    assert (T : N a1 a2 * N b1 b2 = ((a1 * b1 + a2 * b2) * (a1 * b1 + a2 * b2) + (a2 * b1 - a1 * b2) * (a2 * b1 - a1 * b2)) * (s * s + c * c)) by (rewrite SC; unfold N; ring).
    rewrite T. assert (Q : 0 <= ((a1 * b1 + a2 * b2) * s + (a2 * b1 - a1 * b2) * c) * ((a1 * b1 + a2 * b2) * s + (a2 * b1 - a1 * b2) * c)) by apply Rle_0_sqr. lra. }
  assert (SS : Rabs s <= kr * h).
  { unfold s. assert (Y : 0 <= kr * h) by nra. set (y := kr * h) in *. clearbody y. pose proof (SIN_bound y) as SB.
    destruct (Req_dec y 0) as [->|NZ]; [rewrite sin_0, Rabs_R0; lra|].
    assert (Y1 : sin y < y) by (apply sin_lt_x; lra).
    destruct (Rle_dec 1 y); [apply Rabs_le; lra|].
    assert (0 <= sin y) by (apply sin_ge_0; [lra|pose proof PI2_1; lra]). rewrite Rabs_pos_eq; lra. }
  set (W := (a1 * b1 + a2 * b2) * c - (a2 * b1 - a1 * b2) * s) in *.
  assert (T1 : s * W <= Rabs s * (ra * rb)).
  { apply Rle_trans with (Rabs (s * W)); [apply Rle_abs|]. rewrite Rabs_mult. apply Rmult_le_compat_l; [apply Rabs_pos|exact CS]. }
  assert (DX : D = p * (E - E') * X - 4 * q * (s * W)).
  { unfold D, X. replace (p * (N a1 a2 * (E * E - 1) + N b1 b2 * (1 - E' * E'))) with (p * (N a1 a2 * (E * E - E * E') + N b1 b2 * (E * E' - E' * E'))) by (rewrite EE; ring).
    fold W. ring. }
  assert (AB : 0 <= ra * rb) by nra.
  assert (Q1 : 4 * q * (s * W) <= 2 * q * (kr * h) * X).
  { apply Rle_trans with (4 * q * (Rabs s * (ra * rb))); [apply Rmult_le_compat_l; lra|].
    apply Rle_trans with (4 * q * (kr * h * (ra * rb))).
    - apply Rmult_le_compat_l; [lra|]. apply Rmult_le_compat_r; lra.
    - replace (4 * q * (kr * h * (ra * rb))) with (2 * q * (kr * h) * (2 * (ra * rb))) by ring. apply Rmult_le_compat_l; [|lra]. assert (0 <= kr * h) by nra. nra. }
  assert (Q2 : 2 * q * (kr * h) = p * (2 * (kp * h))) by (replace (2 * q * (kr * h)) with (2 * h * (kr * q)) by ring; rewrite <- Hb; ring).
  rewrite Q2 in Q1. assert (LB : p * (E - E' - 2 * (kp * h)) * X <= D) by (rewrite DX; lra).
  assert (XX : 0 <= X) by lra.
  split.
  - apply Rle_trans with (2 := LB). apply Rmult_le_pos; [|exact XX]. apply Rmult_le_pos; lra.
  - intros K1 K2. apply Rlt_le_trans with (2 := LB). apply Rmult_lt_0_compat; [apply Rmult_lt_0_compat; [exact Hp|specialize (S2 K1); lra]|].
    unfold X. destruct (Rlt_dec 0 (N a1 a2)) as [J|J]; [|assert (0 < N b1 b2) by lra]; nra.
Qed.

Definition nonzero (v : C * C) : Prop := fst v <> RtoC 0 \/ snd v <> RtoC 0.
Lemma nsq_pos z : z <> RtoC 0 -> 0 < nsq z.
Proof.
  intros H. unfold nsq. destruct (Req_dec (Re z) 0) as [E|E]; [destruct (Req_dec (Im z) 0) as [F|F]|].
  - exfalso. apply H. apply C_eq; cbn; assumption.
  - assert (0 < Im z * Im z) by (apply (Rsqr_pos_lt (Im z)), F). nra.
  - assert (0 < Re z * Re z) by (apply (Rsqr_pos_lt (Re z)), E). nra.
Qed.
Lemma nsq_nonneg z : 0 <= nsq z.
Proof. unfold nsq. nra. Qed.

Lemma exponents omega l :
  cexp (Cmult (Cmult Ci (k_star omega l)) (RtoC (l_h l))) =
    Cmult (RtoC (exp (- Im (k_star omega l) * l_h l))) (cis (Re (k_star omega l) * l_h l)) /\
  cexp (Cmult (Cmult (Copp Ci) (k_star omega l)) (RtoC (l_h l))) =
    Cmult (RtoC (exp (- (- Im (k_star omega l) * l_h l)))) (cis (- (Re (k_star omega l) * l_h l))).
Proof.
  unfold cexp. split; f_equal; f_equal; f_equal; unfold Ci, Cmult, Copp, RtoC, Re, Im; cbn [fst snd]; ring.
Qed.

Lemma flux_layer omega l v : phys l -> 0 < omega ->
  flux (imp l) v <= flux (imp l) (at_bottom omega l v) /\
  (0 < l_xi l -> 0 < l_h l -> nonzero v -> flux (imp l) v < flux (imp l) (at_bottom omega l v)).
Proof.
  intros P W. destruct v as [A B]. unfold at_bottom. cbn [fst snd]. destruct (exponents omega l) as [-> ->].
  destruct (k_star_parts omega l P W) as (K1 & K2 & K3). pose proof (k_imp omega l P) as KI.
  assert (Zp : 0 < Re (imp l)) by (unfold imp; rewrite Re_mult, Re_R, Im_R; pose proof (vs_star_Re l P); destruct P as (_ & R0 & _); nra).
  assert (Zq : 0 <= Im (imp l)) by (unfold imp; rewrite Im_mult, Re_R, Im_R; pose proof (vs_star_Im l P); destruct P as (_ & R0 & _); nra).
  pose proof (f_equal Im KI) as BAL. rewrite Im_mult, Im_R in BAL. destruct P as (_ & _ & _ & H).
  set (kr := Re (k_star omega l)) in *. set (ki := Im (k_star omega l)) in *. set (p := Re (imp l)) in *. set (q := Im (imp l)) in *. set (h := l_h l) in *.
  destruct (flux_real p q kr (- ki) h (Re A) (Im A) (Re B) (Im B)) as [F1 F2]; try lra.
  rewrite !flux_form. fold p q.
  set (E := exp (- ki * h)) in *. set (E' := exp (- (- ki * h))) in *. set (c := cos (kr * h)) in *. set (s := sin (kr * h)) in *.
  assert (CI : cis (kr * h) = (c, s)) by reflexivity.
  assert (CI' : cis (- (kr * h)) = (c, - s)) by (unfold cis; rewrite cos_neg, sin_neg; reflexivity).
  rewrite CI, CI'. pose proof (sin2_cos2 (kr * h)) as SC. unfold Rsqr in SC. fold c s in SC.
  assert (EE : E * E' = 1) by (unfold E, E'; rewrite <- exp_plus, Rplus_opp_r; apply exp_0).
  assert (N1 : nsq (Cmult A (Cmult (RtoC E) (c, s))) = nsq A * (E * E)).
  { unfold nsq, Cmult, RtoC, Re, Im. cbn [fst snd]. transitivity ((fst A * fst A + snd A * snd A) * (E * E) * (s * s + c * c)); [ring|rewrite SC; ring]. }
  assert (N2 : nsq (Cmult B (Cmult (RtoC E') (c, - s))) = nsq B * (E' * E')).
  { unfold nsq, Cmult, RtoC, Re, Im. cbn [fst snd]. transitivity ((fst B * fst B + snd B * snd B) * (E' * E') * (s * s + c * c)); [ring|rewrite SC; ring]. }
  rewrite N1, N2.
  assert (IM : Im (Cmult A (Cmult (RtoC E) (c, s))) * Re (Cmult B (Cmult (RtoC E') (c, - s))) - Re (Cmult A (Cmult (RtoC E) (c, s))) * Im (Cmult B (Cmult (RtoC E') (c, - s)))
     = (Im A * Re B - Re A * Im B) * (c * c - s * s) + (Re A * Re B + Im A * Im B) * (2 * s * c)).
  { transitivity (E * E' * ((Im A * Re B - Re A * Im B) * (c * c - s * s) + (Re A * Re B + Im A * Im B) * (2 * s * c))); [|rewrite EE; ring].
    unfold Cmult, RtoC, Re, Im. cbn [fst snd]. ring. }
  rewrite IM.
  assert (DD : (p * (nsq A * (E * E) - nsq B * (E' * E')) - 2 * q * ((Im A * Re B - Re A * Im B) * (c * c - s * s) + (Re A * Re B + Im A * Im B) * (2 * s * c)))
     - (p * (nsq A - nsq B) - 2 * q * (Im A * Re B - Re A * Im B))
     = p * (nsq A * (E * E - 1) + nsq B * (1 - E' * E')) - 4 * q * s * ((Re A * Re B + Im A * Im B) * c - (Im A * Re B - Re A * Im B) * s)).
  { assert (CC : c * c = 1 - s * s) by lra. rewrite CC. ring. }
  unfold nsq in *. split; [lra|]. intros X Hh NZ. specialize (K3 X).
  assert (G : 0 < - ki * h) by nra.
  assert (Q : 0 < Re A * Re A + Im A * Im A + (Re B * Re B + Im B * Im B)).
  { pose proof (nsq_nonneg A) as a0. pose proof (nsq_nonneg B) as b0. unfold nsq in *.
    destruct NZ as [Y|Y]; cbn [fst snd] in Y; apply nsq_pos in Y; unfold nsq in Y; lra. }
  specialize (F2 G Q). lra.
Qed.

Lemma flux_step omega l1 l2 v : phys l1 -> phys l2 -> flux (imp l2) (step omega l1 l2 v) = flux (imp l1) (at_bottom omega l1 v).
Proof.
  intros P1 P2. pose proof (step_continuity omega l1 l2 v P1 P2) as H. destruct (at_bottom omega l1 v) as [a b]. destruct (step omega l1 l2 v) as [A B].
  destruct H as [H1 H2]. unfold flux. cbn [fst snd]. rewrite !Cmult_assoc, H2, H1. reflexivity.
Qed.

Lemma at_bottom_nonzero omega l v : nonzero v -> nonzero (at_bottom omega l v).
Proof.
  intros [H|H]; [left|right]; cbn [fst snd at_bottom]; intros E; apply C_integral in E as [E|E]; try (apply H, E); exact (cexp_neq_0 _ E).
Qed.
Lemma step_nonzero omega l1 l2 v : phys l1 -> phys l2 -> nonzero v -> nonzero (step omega l1 l2 v).
Proof.
  intros P1 P2 N. pose proof (step_continuity omega l1 l2 v P1 P2) as H. apply (at_bottom_nonzero omega l1) in N.
  destruct (at_bottom omega l1 v) as [a b]. destruct (step omega l1 l2 v) as [A B]. destruct H as [H1 H2]. unfold nonzero in *. cbn [fst snd] in *.
  destruct (Ceq_dec A (RtoC 0)) as [EA|NA]; [|left; exact NA]. destruct (Ceq_dec B (RtoC 0)) as [EB|NB]; [|right; exact NB]. exfalso. subst.
  rewrite Cplus_0_l in H1. replace (Cminus (RtoC 0) (RtoC 0)) with (RtoC 0) in H2 by ring. rewrite Cmult_0_r in H2. symmetry in H2.
  apply C_integral in H2 as [H2|H2]; [exact (imp_neq l1 P1 H2)|].
  assert (b = RtoC 0).
  { assert (E : Cmult (RtoC 2) b = RtoC 0) by (transitivity (Cminus (Cplus a b) (Cminus a b)); [replace (RtoC 2) with (Cplus (RtoC 1) (RtoC 1)) by (rewrite <- RtoC_plus; f_equal; ring); ring|rewrite <- H1, H2; ring]).
    apply C_integral in E as [E|E]; [apply RtoC_inj in E; lra|exact E]. }
  subst. assert (a = RtoC 0) by (rewrite <- H2; ring). subst. destruct N as [N|N]; apply N; reflexivity.
Qed.

(** Flux in the last layer: at least that of the first; larger as soon as one layer
    above dissipates. *)
Lemma flux_final omega : 0 < omega -> forall ls v d, Forall phys ls -> ls <> [] ->
  flux (imp (hd d ls)) v <= flux (imp (last ls d)) (final omega ls v).
Proof.
  intros W. induction ls as [|l1 ls IH]; intros v d F N; [congruence|]. destruct ls as [|l2 ls].
  - cbn. lra.
  - inversion F as [|? ? P1 F']; subst. inversion F' as [|? ? P2 _]; subst. rewrite final_cons.
    change (last (l1 :: l2 :: ls) d) with (last (l2 :: ls) d). cbn [hd].
    apply Rle_trans with (2 := IH (step omega l1 l2 v) d F' ltac:(discriminate)). cbn [hd].
    rewrite flux_step by assumption. apply flux_layer; assumption.
Qed.
Lemma final_nonzero omega : forall ls v, Forall phys ls -> nonzero v -> nonzero (final omega ls v).
Proof.
  induction ls as [|l1 ls IH]; intros v F N; [exact N|]. destruct ls as [|l2 ls]; [exact N|].
  inversion F as [|? ? P1 F']; subst. inversion F' as [|? ? P2 _]; subst. rewrite final_cons. apply IH; [exact F'|]. apply step_nonzero; assumption.
Qed.
Lemma flux_final_strict omega l1 l2 ls v d : 0 < omega -> Forall phys (l1 :: l2 :: ls) -> nonzero v -> 0 < l_xi l1 -> 0 < l_h l1 ->
  flux (imp l1) v < flux (imp (last (l1 :: l2 :: ls) d)) (final omega (l1 :: l2 :: ls) v).
Proof.
  intros W F N X H. inversion F as [|? ? P1 F']; subst. inversion F' as [|? ? P2 _]; subst. rewrite final_cons.
  change (last (l1 :: l2 :: ls) d) with (last (l2 :: ls) d).
  apply Rlt_le_trans with (2 := flux_final omega W (l2 :: ls) (step omega l1 l2 v) d F' ltac:(discriminate)). cbn [hd].
  rewrite flux_step by assumption. apply flux_layer; assumption.
Qed.

Lemma flux_equal Z A : flux Z (A, A) = 0.
Proof. rewrite flux_form. ring. Qed.
Lemma flux_one Z : flux Z one2 = 0.
Proof. apply flux_equal. Qed.

(** The incident amplitude never vanishes. *)
Lemma incident_neq_0 omega ls : 0 < omega -> Forall phys ls -> ls <> [] -> fst (final omega ls one2) <> RtoC 0.
Proof.
  intros W F N E. set (d := mklay 0 0 0 0). pose proof (flux_final omega W ls one2 d F N) as FF.
  rewrite flux_one in FF.
  assert (NZ : nonzero (final omega ls one2)) by (apply final_nonzero; [exact F|left; apply RtoC_neq; lra]).
  destruct (final omega ls one2) as [A B]. cbn [fst] in E. subst A.
  assert (PL : phys (last ls d)) by (rewrite Forall_forall in F; apply F; destruct (exists_last N) as (l' & x & ->); rewrite last_last; apply in_or_app; right; left; reflexivity).
  rewrite flux_form in FF. destruct NZ as [Z|Z]; [apply Z; reflexivity|]. cbn [snd] in Z. apply nsq_pos in Z.
  assert (Zp : 0 < Re (imp (last ls d))) by (unfold imp; rewrite Re_mult, Re_R, Im_R; pose proof (vs_star_Re _ PL); destruct PL as (_ & R0 & _); nra).
  unfold nsq in FF at 1. rewrite Re_R, Im_R in FF. nra.
Qed.

(** With a dissipating layer on top the sum at the base never vanishes either. *)
Lemma base_neq_0 omega l1 l2 ls : 0 < omega -> Forall phys (l1 :: l2 :: ls) -> 0 < l_xi l1 -> 0 < l_h l1 ->
  Cplus (fst (final omega (l1 :: l2 :: ls) one2)) (snd (final omega (l1 :: l2 :: ls) one2)) <> RtoC 0.
Proof.
  intros W F X H E. set (d := mklay 0 0 0 0).
  pose proof (flux_final_strict omega l1 l2 ls one2 d W F ltac:(left; apply RtoC_neq; lra) X H) as FF.
  rewrite flux_one in FF. unfold flux in FF. rewrite E, Cconj_R, Cmult_0_r, Cmult_0_r in FF. cbn in FF. lra.
Qed.
