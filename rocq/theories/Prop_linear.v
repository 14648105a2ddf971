(** C23: the linear transfer functions solve the layered wave equation. *)
From Coq Require Import Reals List Bool ZArith Lia Lra Psatz.
From Coquelicot Require Import Coquelicot.
From Coq Require Import List.
From Verif Require Import Base M_generic P_generic M_profile P_profile M_vs_profile P_vs_profile M_motion M_interp P_interp M_dft P_dft M_linear P_linear.
Import ListNotations.
Open Scope R_scope.

(** ** Specification: shear waves in a layered column *)

(** [d] is the derivative of the complex-valued [u] at [z]. *)
Definition cderiv (u : R -> C) (z : R) (d : C) : Prop :=
  is_derive (fun x => Re (u x)) z (Re d) /\ is_derive (fun x => Im (u x)) z (Im d).

(** Complex shear modulus [rho Vs^2 (1 + 2 i xi)]. *)
Definition Gstar (l : lay) : C := (l_rho l * (l_vs l * l_vs l), l_rho l * (l_vs l * l_vs l) * (2 * l_xi l)).

(** The motion of circular frequency [omega] in a column of layers: displacement
    [u j] and gradient [g j] in layer [j], depth measured from the top of the layer.
    Momentum balance in every layer, no traction at the surface, continuous
    displacement and traction at every interface. *)
Definition column_motion (omega : R) (ls : list lay) (u g : nat -> R -> C) : Prop :=
  (forall j l, nth_error ls j = Some l -> forall z, cderiv (u j) z (g j z) /\
     exists d, cderiv (g j) z d /\ Cmult (Gstar l) d = Cmult (RtoC (- (l_rho l * (omega * omega)))) (u j z)) /\
  g O 0 = RtoC 0 /\
  (forall j l1 l2, nth_error ls j = Some l1 -> nth_error ls (S j) = Some l2 ->
     u j (l_h l1) = u (S j) 0 /\ Cmult (Gstar l1) (g j (l_h l1)) = Cmult (Gstar l2) (g (S j) 0)).

(** In the half space [l], [A] is the amplitude at the top of the wave travelling
    upwards (the one that decays upwards when there is damping). *)
Definition upgoing (omega : R) (l : lay) (u : R -> C) (A : C) : Prop :=
  exists k B, Cmult (Gstar l) (Cmult k k) = RtoC (l_rho l * (omega * omega)) /\ 0 < Re k /\
    forall z, u z = Cplus (Cmult A (cexp (Cmult (Cmult Ci k) (RtoC z)))) (Cmult B (cexp (Cmult (Cmult (Copp Ci) k) (RtoC z)))).

(** A column as the validator admits it. *)
Definition column (ls : list lay) : Prop :=
  exists init lst, ls = init ++ [lst] /\ Forall (fun l => phys l /\ 0 < l_xi l /\ 0 < l_h l) init /\ phys lst /\ 0 < l_xi lst.

(** ** Calculus of complex functions *)
Lemma cderiv_mult (f g : R -> C) z f' g' : cderiv f z f' -> cderiv g z g' ->
  cderiv (fun x => Cmult (f x) (g x)) z (Cplus (Cmult f' (g z)) (Cmult (f z) g')).
Proof.
  intros [F1 F2] [G1 G2]. unfold cderiv, Cmult, Cplus, Re, Im in *. cbn [fst snd] in *.
  assert (M : forall (a b : R -> R) da db, is_derive a z da -> is_derive b z db -> is_derive (fun x => a x * b x) z (da * b z + a z * db)).
  { intros a b da db A B. apply (is_derive_mult a b z da db A B). intros; apply Rmult_comm. }
  pose proof (M _ _ _ _ F1 G1) as M1. pose proof (M _ _ _ _ F2 G2) as M2. pose proof (M _ _ _ _ F1 G2) as M3. pose proof (M _ _ _ _ F2 G1) as M4. cbn beta in *.
  split.
  - replace (fst f' * fst (g z) - snd f' * snd (g z) + (fst (f z) * fst g' - snd (f z) * snd g'))
      with ((fst f' * fst (g z) + fst (f z) * fst g') - (snd f' * snd (g z) + snd (f z) * snd g')) by ring.
    exact (is_derive_minus _ _ _ _ _ M1 M2).
  - replace (fst f' * snd (g z) + snd f' * fst (g z) + (fst (f z) * snd g' + snd (f z) * fst g'))
      with ((fst f' * snd (g z) + fst (f z) * snd g') + (snd f' * fst (g z) + snd (f z) * fst g')) by ring.
    exact (is_derive_plus _ _ _ _ _ M3 M4).
Qed.
Lemma cderiv_plus (f g : R -> C) z f' g' : cderiv f z f' -> cderiv g z g' -> cderiv (fun x => Cplus (f x) (g x)) z (Cplus f' g').
Proof.
  intros [F1 F2] [G1 G2]. unfold cderiv, Cplus, Re, Im in *. cbn [fst snd] in *. split; apply @is_derive_plus; assumption.
Qed.
Lemma cderiv_const (c : C) z : cderiv (fun _ => c) z (RtoC 0).
Proof. split; cbn; apply @is_derive_const. Qed.
Lemma cderiv_eq (f : R -> C) z d d' : cderiv f z d -> d = d' -> cderiv f z d'.
Proof. intros H <-. exact H. Qed.
Lemma cderiv_scal (c : C) (f : R -> C) z f' : cderiv f z f' -> cderiv (fun x => Cmult c (f x)) z (Cmult c f').
Proof. intros F. eapply cderiv_eq; [apply (cderiv_mult (fun _ => c) f); [apply cderiv_const|exact F]|]. ring. Qed.
Lemma cderiv_cexp (c : C) z : cderiv (fun x => cexp (Cmult c (RtoC x))) z (Cmult c (cexp (Cmult c (RtoC z)))).
Proof.
  destruct c as [a b]. unfold cderiv, cexp, cis, Cmult, RtoC, Re, Im. cbn [fst snd].
  split; auto_derive; auto; change (a * z + - (b * 0)) with (a * z - b * 0); ring.
Qed.
Lemma cderiv_zero (f : R -> C) : (forall z, cderiv f z (RtoC 0)) -> forall z, f z = f 0.
Proof.
  intros H z. apply C_eq.
  - destruct (Rtotal_order z 0) as [L|[->|L]]; [|reflexivity|].
    + apply (eq_is_derive (fun x => Re (f x)) z 0); [|exact L]. intros t _. exact (proj1 (H t)).
    + symmetry. apply (eq_is_derive (fun x => Re (f x)) 0 z); [|exact L]. intros t _. exact (proj1 (H t)).
  - destruct (Rtotal_order z 0) as [L|[->|L]]; [|reflexivity|].
    + apply (eq_is_derive (fun x => Im (f x)) z 0); [|exact L]. intros t _. exact (proj2 (H t)).
    + symmetry. apply (eq_is_derive (fun x => Im (f x)) 0 z); [|exact L]. intros t _. exact (proj2 (H t)).
Qed.

(** ** Waves in one layer *)
Lemma Gstar_eq l : Gstar l = Cmult (RtoC (l_rho l)) (Cmult (vs_star l) (vs_star l)).
Proof.
  rewrite vs_star_eq.
  transitivity (Cmult (RtoC (l_rho l)) (Cmult (RtoC (l_vs l * l_vs l)) (Cmult (csqrt (damp (l_xi l))) (csqrt (damp (l_xi l)))))).
  2:{ rewrite RtoC_mult. ring. }
  rewrite csqrt_sq. apply C_eq.
  - rewrite !Re_mult, !Im_mult, damp_Re, damp_Im, !Re_R, !Im_R. unfold Gstar, Re. cbn [fst]. ring.
  - rewrite !Im_mult, !Re_mult, damp_Re, damp_Im, !Re_R, !Im_R. unfold Gstar, Im. cbn [snd]. ring.
Qed.
Lemma Gstar_k omega l : phys l -> Cmult (Gstar l) (k_star omega l) = Cmult (RtoC omega) (imp l).
Proof. intros P. rewrite Gstar_eq. unfold k_star, imp. field. apply vs_star_neq, P. Qed.
Lemma Gstar_kk omega l : phys l -> Cmult (Gstar l) (Cmult (k_star omega l) (k_star omega l)) = RtoC (l_rho l * (omega * omega)).
Proof. intros P. rewrite Gstar_eq. unfold k_star. rewrite !RtoC_mult. field. apply vs_star_neq, P. Qed.
Lemma Gstar_neq l : phys l -> Gstar l <> RtoC 0.
Proof.
  intros P E. rewrite Gstar_eq in E. apply C_integral in E as [E|E].
  - destruct P as (_ & R0 & _). apply RtoC_inj in E. lra.
  - apply C_integral in E as [E|E]; exact (vs_star_neq l P E).
Qed.
Lemma k_neq omega l : phys l -> 0 < omega -> k_star omega l <> RtoC 0.
Proof. intros P W E. destruct (k_star_parts omega l P W) as (K & _). rewrite E, Re_R in K. lra. Qed.
Lemma Ci_neq : Ci <> RtoC 0.
Proof. intros E. injection E. lra. Qed.
Lemma RtoC_m1 : RtoC (-1) = Copp (RtoC 1).
Proof. rewrite <- RtoC_opp. reflexivity. Qed.
Lemma Ci_sq : Cmult Ci Ci = RtoC (-1).
Proof. unfold Ci, Cmult, RtoC. cbn. f_equal; ring. Qed.

(** The root with positive real part is unique. *)
Lemma wavenumber_unique omega l k : phys l -> 0 < omega -> Cmult (Gstar l) (Cmult k k) = RtoC (l_rho l * (omega * omega)) -> 0 < Re k -> k = k_star omega l.
Proof.
  intros P W E K. rewrite <- (Gstar_kk omega l P) in E.
  assert (S : Cmult (Cminus k (k_star omega l)) (Cplus k (k_star omega l)) = RtoC 0).
  { assert (Z : Cmult (Gstar l) (Cmult (Cminus k (k_star omega l)) (Cplus k (k_star omega l))) = RtoC 0).
    { transitivity (Cminus (Cmult (Gstar l) (Cmult k k)) (Cmult (Gstar l) (Cmult (k_star omega l) (k_star omega l)))); [ring|rewrite E; ring]. }
    apply C_integral in Z as [Z|Z]; [destruct (Gstar_neq l P Z)|exact Z]. }
  apply C_integral in S as [S|S].
  - transitivity (Cplus (Cminus k (k_star omega l)) (k_star omega l)); [ring|rewrite S; ring].
  - exfalso. pose proof (f_equal Re S) as Q. rewrite Re_plus, Re_R in Q. destruct (k_star_parts omega l P W) as (K2 & _). lra.
Qed.

Definition up (k : C) (z : R) : C := cexp (Cmult (Cmult Ci k) (RtoC z)).
Definition down (k : C) (z : R) : C := cexp (Cmult (Cmult (Copp Ci) k) (RtoC z)).
Lemma up_down k z : Cmult (up k z) (down k z) = RtoC 1.
Proof. unfold up, down. replace (Cmult (Cmult (Copp Ci) k) (RtoC z)) with (Copp (Cmult (Cmult Ci k) (RtoC z))) by ring. apply cexp_inv. Qed.
Lemma up_0 k : up k 0 = RtoC 1.
Proof. unfold up. rewrite Cmult_0_r. apply cexp_0. Qed.
Lemma down_0 k : down k 0 = RtoC 1.
Proof. unfold down. rewrite Cmult_0_r. apply cexp_0. Qed.

(** General solution of the wave equation in a layer. *)
Lemma layer_waves omega l (u g : R -> C) : phys l -> 0 < omega ->
  (forall z, cderiv u z (g z) /\ exists d, cderiv g z d /\ Cmult (Gstar l) d = Cmult (RtoC (- (l_rho l * (omega * omega)))) (u z)) ->
  exists A B, forall z,
    u z = Cplus (Cmult A (up (k_star omega l) z)) (Cmult B (down (k_star omega l) z)) /\
    g z = Cmult (Cmult Ci (k_star omega l)) (Cminus (Cmult A (up (k_star omega l) z)) (Cmult B (down (k_star omega l) z))).
Proof.
  intros P W H. pose proof (k_neq omega l P W) as KN. pose proof Ci_neq as CN. pose proof (Gstar_kk omega l P) as GK. pose proof (Gstar_neq l P) as GN.
  set (k := k_star omega l) in *. set (ik := Cmult Ci k). assert (IN : ik <> RtoC 0) by (intros E; apply C_integral in E as [E|E]; contradiction).
  assert (IK2 : Cmult ik ik = Copp (Cmult k k)).
  { unfold ik. transitivity (Cmult (Cmult Ci Ci) (Cmult k k)); [ring|]. rewrite Ci_sq, RtoC_m1. ring. }
  assert (ACC : forall z, exists d, cderiv g z d /\ d = Cmult (Cmult ik ik) (u z)).
  { intros z. destruct (H z) as (_ & d & D1 & D2). exists d. split; [exact D1|].
    assert (Z : Cmult (Gstar l) (Cminus d (Cmult (Cmult ik ik) (u z))) = RtoC 0).
    { rewrite IK2. transitivity (Cplus (Cmult (Gstar l) d) (Cmult (Cmult (Gstar l) (Cmult k k)) (u z))); [ring|]. rewrite D2, GK, RtoC_opp. ring. }
    apply C_integral in Z as [Z|Z]; [contradiction|]. transitivity (Cplus (Cminus d (Cmult (Cmult ik ik) (u z))) (Cmult (Cmult ik ik) (u z))); [ring|rewrite Z; ring]. }
  assert (DU : forall z, cderiv (up k) z (Cmult ik (up k z))) by (intros z; apply cderiv_cexp).
  assert (DD : forall z, cderiv (down k) z (Cmult (Copp ik) (down k z))).
  { intros z. eapply cderiv_eq; [apply cderiv_cexp|]. unfold down, ik. ring. }
  set (F := fun z => Cmult (Cplus (Cmult ik (u z)) (g z)) (down k z)).
  set (Q := fun z => Cmult (Cplus (Cmult ik (u z)) (Cmult (RtoC (-1)) (g z))) (up k z)).
  pose proof RtoC_m1 as M1.
  assert (F0 : forall z, F z = F 0).
  { apply cderiv_zero. intros z. destruct (H z) as (D1 & _). destruct (ACC z) as (d & D2 & ->).
    eapply cderiv_eq; [apply cderiv_mult; [apply cderiv_plus; [apply cderiv_scal; exact D1|exact D2]|apply DD]|]. cbn beta. ring. }
  assert (Q0 : forall z, Q z = Q 0).
  { apply cderiv_zero. intros z. destruct (H z) as (D1 & _). destruct (ACC z) as (d & D2 & ->).
    eapply cderiv_eq; [apply cderiv_mult; [apply cderiv_plus; [apply cderiv_scal; exact D1|apply cderiv_scal; exact D2]|apply DU]|]. cbn beta. rewrite M1. ring. }
  assert (T2 : RtoC 2 = Cplus (RtoC 1) (RtoC 1)) by (rewrite <- RtoC_plus; f_equal; ring).
  assert (N2 : RtoC 2 <> RtoC 0) by (apply RtoC_neq; lra).
  set (w := Cmult (RtoC 2) ik). assert (WN : w <> RtoC 0) by (intros E; apply C_integral in E as [E|E]; contradiction).
  exists (Cdiv (F 0) w), (Cdiv (Q 0) w). intros z. rewrite <- (F0 z), <- (Q0 z). unfold F, Q. pose proof (up_down k z) as UD.
  assert (E1 : Cmult (Cdiv (Cmult (Cplus (Cmult ik (u z)) (g z)) (down k z)) w) (up k z) = Cdiv (Cplus (Cmult ik (u z)) (g z)) w).
  { transitivity (Cmult (Cdiv (Cplus (Cmult ik (u z)) (g z)) w) (Cmult (up k z) (down k z))); [field; exact WN|rewrite UD; ring]. }
  assert (E2 : Cmult (Cdiv (Cmult (Cplus (Cmult ik (u z)) (Cmult (RtoC (-1)) (g z))) (up k z)) w) (down k z) = Cdiv (Cplus (Cmult ik (u z)) (Cmult (RtoC (-1)) (g z))) w).
  { transitivity (Cmult (Cdiv (Cplus (Cmult ik (u z)) (Cmult (RtoC (-1)) (g z))) w) (Cmult (up k z) (down k z))); [field; exact WN|rewrite UD; ring]. }
  rewrite E1, E2. rewrite M1. unfold w. rewrite T2. fold ik.
  assert (N3 : Cplus (RtoC 1) (RtoC 1) <> RtoC 0) by (rewrite <- T2; exact N2).
  split; field; split; assumption.
Qed.

(** ** Waves in the column *)
Lemma step_of_continuity omega l1 l2 A B A' B' : phys l1 -> phys l2 -> 0 < omega ->
  let (a, b) := at_bottom omega l1 (A, B) in
  Cplus A' B' = Cplus a b -> Cmult (imp l2) (Cminus A' B') = Cmult (imp l1) (Cminus a b) -> (A', B') = step omega l1 l2 (A, B).
Proof.
  intros P1 P2 W. pose proof (step_continuity omega l1 l2 (A, B) P1 P2) as H.
  destruct (at_bottom omega l1 (A, B)) as [a b]. destruct (step omega l1 l2 (A, B)) as [X Y]. destruct H as [H1 H2]. intros E1 E2.
  rewrite <- H1 in E1. rewrite <- H2 in E2.
  assert (E3 : Cminus A' B' = Cminus X Y).
  { assert (Z : Cmult (imp l2) (Cminus (Cminus A' B') (Cminus X Y)) = RtoC 0).
    { transitivity (Cminus (Cmult (imp l2) (Cminus A' B')) (Cmult (imp l2) (Cminus X Y))); [ring|rewrite E2; ring]. }
    apply C_integral in Z as [Z|Z]; [destruct (imp_neq l2 P2 Z)|].
    transitivity (Cplus (Cminus (Cminus A' B') (Cminus X Y)) (Cminus X Y)); [ring|rewrite Z; ring]. }
  assert (T2 : RtoC 2 = Cplus (RtoC 1) (RtoC 1)) by (rewrite <- RtoC_plus; f_equal; ring).
  assert (N3 : Cplus (RtoC 1) (RtoC 1) <> RtoC 0) by (rewrite <- T2; apply RtoC_neq; lra).
  assert (EA : A' = X).
  { transitivity (Cdiv (Cplus (Cplus A' B') (Cminus A' B')) (Cplus (RtoC 1) (RtoC 1))); [field; exact N3|]. rewrite E1, E3. field. exact N3. }
  subst A'. f_equal. transitivity (Cminus (Cplus X B') X); [ring|]. rewrite E1. ring.
Qed.

Lemma traction omega l X : phys l -> Cmult (Gstar l) (Cmult (Cmult Ci (k_star omega l)) X) = Cmult (Cmult Ci (RtoC omega)) (Cmult (imp l) X).
Proof. intros P. transitivity (Cmult (Cmult Ci (Cmult (Gstar l) (k_star omega l))) X); [ring|]. rewrite Gstar_k by exact P. ring. Qed.

(** From the top of any layer downwards. *)
Lemma motion_final omega : 0 < omega -> forall ls (u g : nat -> R -> C) A B, Forall phys ls -> ls <> [] ->
  (forall j l, nth_error ls j = Some l -> forall z, cderiv (u j) z (g j z) /\
     exists d, cderiv (g j) z d /\ Cmult (Gstar l) d = Cmult (RtoC (- (l_rho l * (omega * omega)))) (u j z)) ->
  (forall j l1 l2, nth_error ls j = Some l1 -> nth_error ls (S j) = Some l2 ->
     u j (l_h l1) = u (S j) 0 /\ Cmult (Gstar l1) (g j (l_h l1)) = Cmult (Gstar l2) (g (S j) 0)) ->
  (forall z, u O z = Cplus (Cmult A (up (k_star omega (hd (mklay 0 0 0 0) ls)) z)) (Cmult B (down (k_star omega (hd (mklay 0 0 0 0) ls)) z)) /\
     g O z = Cmult (Cmult Ci (k_star omega (hd (mklay 0 0 0 0) ls))) (Cminus (Cmult A (up (k_star omega (hd (mklay 0 0 0 0) ls)) z)) (Cmult B (down (k_star omega (hd (mklay 0 0 0 0) ls)) z)))) ->
  forall z, u (length ls - 1)%nat z =
    Cplus (Cmult (fst (final omega ls (A, B))) (up (k_star omega (last ls (mklay 0 0 0 0))) z)) (Cmult (snd (final omega ls (A, B))) (down (k_star omega (last ls (mklay 0 0 0 0))) z)).
Proof.
  intros W. induction ls as [|l1 ls IH]; intros u g A B F N EQ CT U0 z; [congruence|]. destruct ls as [|l2 ls].
  - cbn [length final fst snd last hd] in *. exact (proj1 (U0 z)).
  - inversion F as [|? ? P1 F']; subst. inversion F' as [|? ? P2 _]; subst. cbn [hd] in U0.
    destruct (layer_waves omega l2 (u 1%nat) (g 1%nat) P2 W (EQ 1%nat l2 eq_refl)) as (A' & B' & U1).
    destruct (CT O l1 l2 eq_refl eq_refl) as [C1 C2].
    rewrite (proj1 (U0 (l_h l1))), (proj1 (U1 0)), up_0, down_0 in C1.
    rewrite (proj2 (U0 (l_h l1))), (proj2 (U1 0)), up_0, down_0, !traction in C2 by assumption.
    assert (ST : (A', B') = step omega l1 l2 (A, B)).
    { pose proof (step_of_continuity omega l1 l2 A B A' B' P1 P2 W) as S9. unfold at_bottom in S9. cbn [fst snd] in S9.
      apply S9.
      - unfold up, down in C1. rewrite C1. ring.
      - assert (Z : Cmult (Cmult Ci (RtoC omega)) (Cminus (Cmult (imp l2) (Cminus A' B')) (Cmult (imp l1) (Cminus (Cmult A (up (k_star omega l1) (l_h l1))) (Cmult B (down (k_star omega l1) (l_h l1)))))) = RtoC 0).
        { transitivity (Cminus (Cmult (Cmult Ci (RtoC omega)) (Cmult (imp l2) (Cminus (Cmult A' (RtoC 1)) (Cmult B' (RtoC 1))))) (Cmult (Cmult Ci (RtoC omega)) (Cmult (imp l1) (Cminus (Cmult A (up (k_star omega l1) (l_h l1))) (Cmult B (down (k_star omega l1) (l_h l1))))))); [ring|rewrite C2; ring]. }
        apply C_integral in Z as [Z|Z].
        + exfalso. apply C_integral in Z as [Z|Z]; [exact (Ci_neq Z)|apply RtoC_inj in Z; lra].
        + unfold up, down in Z. match type of Z with Cminus ?x ?y = _ => transitivity (Cplus (Cminus x y) y); [ring|rewrite Z; ring] end. }
    rewrite final_cons, <- ST. change (last (l1 :: l2 :: ls) (mklay 0 0 0 0)) with (last (l2 :: ls) (mklay 0 0 0 0)).
    replace (length (l1 :: l2 :: ls) - 1)%nat with (S (length (l2 :: ls) - 1)) by (cbn [length]; lia).
    apply (IH (fun j => u (Datatypes.S j)) (fun j => g (Datatypes.S j)) A' B'); [exact F'|discriminate| | |exact U1].
    + intros j l E. apply (EQ (Datatypes.S j) l E).
    + intros j m1 m2 E1 E2. apply (CT (Datatypes.S j) m1 m2 E1 E2).
Qed.

Definition vscal (c : C) (v : C * C) : C * C := (Cmult c (fst v), Cmult c (snd v)).
Lemma step_scal omega l1 l2 c v : step omega l1 l2 (vscal c v) = vscal c (step omega l1 l2 v).
Proof. unfold step, at_bottom, vscal. cbn [fst snd]. f_equal; ring. Qed.
Lemma final_scal omega : forall ls c v, final omega ls (vscal c v) = vscal c (final omega ls v).
Proof.
  induction ls as [|l1 ls IH]; intros c v; [reflexivity|]. destruct ls as [|l2 ls]; [reflexivity|]. rewrite !final_cons, step_scal. apply IH.
Qed.
Lemma waves_unique (k : C) (A B A' B' : C) : k <> RtoC 0 ->
  (forall z, Cplus (Cmult A (up k z)) (Cmult B (down k z)) = Cplus (Cmult A' (up k z)) (Cmult B' (down k z))) -> A = A' /\ B = B'.
Proof.
  intros K H. assert (IN : Cmult Ci k <> RtoC 0) by (intros E; apply C_integral in E as [E|E]; [exact (Ci_neq E)|contradiction]).
  pose proof (H 0) as H0. rewrite !up_0, !down_0 in H0.
  assert (DS : forall a b z, cderiv (fun z => Cplus (Cmult a (up k z)) (Cmult b (down k z))) z (Cmult (Cmult Ci k) (Cminus (Cmult a (up k z)) (Cmult b (down k z))))).
  { intros a b z. eapply cderiv_eq; [apply cderiv_plus; apply cderiv_scal; apply cderiv_cexp|]. unfold up, down. ring. }
  assert (E : Cmult (Cmult Ci k) (Cminus (Cmult A (up k 0)) (Cmult B (down k 0))) = Cmult (Cmult Ci k) (Cminus (Cmult A' (up k 0)) (Cmult B' (down k 0)))).
  { destruct (DS A B 0) as [D1 D2]. destruct (DS A' B' 0) as [D3 D4].
    assert (D1' : is_derive (fun x => Re (Cplus (Cmult A' (up k x)) (Cmult B' (down k x)))) 0 (Re (Cmult (Cmult Ci k) (Cminus (Cmult A (up k 0)) (Cmult B (down k 0)))))).
    { eapply is_derive_ext; [|exact D1]. intros t. cbn beta. rewrite H. reflexivity. }
    assert (D2' : is_derive (fun x => Im (Cplus (Cmult A' (up k x)) (Cmult B' (down k x)))) 0 (Im (Cmult (Cmult Ci k) (Cminus (Cmult A (up k 0)) (Cmult B (down k 0)))))).
    { eapply is_derive_ext; [|exact D2]. intros t. cbn beta. rewrite H. reflexivity. }
    apply C_eq; [rewrite <- (is_derive_unique _ _ _ D1'), <- (is_derive_unique _ _ _ D3)|rewrite <- (is_derive_unique _ _ _ D2'), <- (is_derive_unique _ _ _ D4)]; reflexivity. }
  rewrite !up_0, !down_0 in E.
  assert (T2 : RtoC 2 = Cplus (RtoC 1) (RtoC 1)) by (rewrite <- RtoC_plus; f_equal; ring).
  assert (N3 : Cplus (RtoC 1) (RtoC 1) <> RtoC 0) by (rewrite <- T2; apply RtoC_neq; lra).
  assert (E' : Cminus A B = Cminus A' B').
  { transitivity (Cdiv (Cmult (Cmult Ci k) (Cminus (Cmult A (RtoC 1)) (Cmult B (RtoC 1)))) (Cmult Ci k)); [|rewrite E]; field; split; [assumption|apply Ci_neq|assumption|apply Ci_neq]. }
  assert (H' : Cplus A B = Cplus A' B') by (transitivity (Cplus (Cmult A (RtoC 1)) (Cmult B (RtoC 1))); [ring|rewrite H0; ring]).
  split.
  - transitivity (Cdiv (Cplus (Cplus A B) (Cminus A B)) (Cplus (RtoC 1) (RtoC 1))); [|rewrite H', E']; field; exact N3.
  - transitivity (Cdiv (Cminus (Cplus A B) (Cminus A B)) (Cplus (RtoC 1) (RtoC 1))); [|rewrite H', E']; field; exact N3.
Qed.

Lemma column_phys ls : column ls -> Forall phys ls /\ ls <> [].
Proof.
  intros (init & lst & -> & F & P & _). split; [|destruct init; discriminate]. apply Forall_app. split; [|constructor; [exact P|constructor]].
  eapply Forall_impl; [|exact F]. intros l H. apply H.
Qed.
Lemma column_base omega ls : 0 < omega -> column ls -> Cplus (fst (final omega ls one2)) (snd (final omega ls one2)) <> RtoC 0.
Proof.
  intros W Cl. destruct (column_phys ls Cl) as [F N]. destruct Cl as (init & lst & -> & Fi & _). destruct init as [|l1 init].
  - cbn. rewrite <- RtoC_plus. apply RtoC_neq. lra.
  - inversion Fi as [|? ? (P1 & X1 & H1) _]; subst. cbn [app] in *. destruct (init ++ [lst]) as [|l2 rest] eqn:E; [destruct init; discriminate|].
    apply base_neq_0; assumption.
Qed.
Lemma tf_final omega ls : ls <> [] ->
  tf_ro omega ls = Cdiv (RtoC 1) (fst (final omega ls one2)) /\ tf_in omega ls = Cdiv (RtoC 2) (fst (final omega ls one2)) /\
  tf_bh omega ls = Cdiv (RtoC 2) (Cplus (fst (final omega ls one2)) (snd (final omega ls one2))).
Proof. intros N. destruct (Emat_sums omega ls N) as [E1 E2]. unfold tf_ro, tf_in, tf_bh. rewrite E1, E2. auto. Qed.
Lemma nth_error_last {A} (ls : list A) d : ls <> [] -> nth_error ls (length ls - 1) = Some (last ls d).
Proof.
  intros N. destruct (exists_last N) as (l & x & ->). rewrite last_last, app_length. cbn [length]. replace (length l + 1 - 1)%nat with (length l) by lia.
  rewrite nth_error_app2, Nat.sub_diag by lia. reflexivity.
Qed.

(** ** C23 *)

(** Whatever motion the column undergoes at circular frequency [omega], its surface
    is the rock-outcrop function times the outcrop motion of the half space (twice the
    upgoing wave), the incident function times the upgoing wave, and the borehole
    function times the motion at the top of the half space. *)
Theorem C23_solves_wave_equation : forall omega ls u g A lst, 0 < omega -> column ls -> last ls (mklay 0 0 0 0) = lst ->
  column_motion omega ls u g -> upgoing omega lst (u (length ls - 1)%nat) A ->
  u O 0 = Cmult (tf_ro omega ls) (Cmult (RtoC 2) A) /\
  u O 0 = Cmult (tf_in omega ls) A /\
  u O 0 = Cmult (tf_bh omega ls) (u (length ls - 1)%nat 0).
Proof.
  intros omega ls u g A lst W Cl EL (EQ & FS & CT) (k & Bk & K1 & K2 & UP).
  destruct (column_phys ls Cl) as [F N]. pose proof (column_base omega ls W Cl) as BN. pose proof (incident_neq_0 omega ls W F N) as AN.
  destruct (tf_final omega ls N) as (T1 & T2 & T3). rewrite T1, T2, T3. clear T1 T2 T3.
  assert (PL : phys lst).
  { rewrite Forall_forall in F. apply F. subst lst. eapply nth_error_In. apply (nth_error_last ls (mklay 0 0 0 0) N). }
  rewrite (wavenumber_unique omega lst k PL W K1 K2) in UP. clear K1 K2 k.
  destruct ls as [|l0 ls]; [congruence|]. inversion F as [|? ? P0 _]; subst.
  destruct (layer_waves omega l0 (u O) (g O) P0 W (EQ O l0 eq_refl)) as (A0 & B0 & U0).
  pose proof (motion_final omega W (l0 :: ls) u g A0 B0 F N EQ CT U0) as UF.
  rewrite (proj2 (U0 0)), up_0, down_0 in FS.
  assert (AB : A0 = B0).
  { apply C_integral in FS as [Z|Z].
    - exfalso. apply C_integral in Z as [Z|Z]; [exact (Ci_neq Z)|exact (k_neq omega l0 P0 W Z)].
    - transitivity (Cplus (Cminus (Cmult A0 (RtoC 1)) (Cmult B0 (RtoC 1))) B0); [ring|rewrite Z; ring]. }
  subst B0. assert (AV : (A0, A0) = vscal A0 one2) by (unfold vscal, one2; cbn [fst snd]; f_equal; ring).
  rewrite AV, final_scal in UF.
  set (fin := final omega (l0 :: ls) one2) in *. destruct fin as [fA fB] eqn:Efin. unfold vscal in UF. cbn [fst snd] in UF, BN, AN |- *.
  destruct (waves_unique (k_star omega (last (l0 :: ls) (mklay 0 0 0 0))) A Bk (Cmult A0 fA) (Cmult A0 fB)) as [EA EB].
  - apply k_neq; assumption.
  - intros z. rewrite <- UF. symmetry. apply UP.
  - rewrite (proj1 (U0 0)), up_0, down_0. rewrite (UF 0), up_0, down_0, EA.
    assert (T2 : RtoC 2 = Cplus (RtoC 1) (RtoC 1)) by (rewrite <- RtoC_plus; f_equal; ring). rewrite T2.
    repeat split; field; assumption.
Qed.

(** Such a motion exists for every amplitude of the upgoing wave. *)
Lemma waves_nth omega : forall ls v j l1 l2, nth_error ls j = Some l1 -> nth_error ls (S j) = Some l2 ->
  nth (S j) (waves omega ls v) (RtoC 0, RtoC 0) = step omega l1 l2 (nth j (waves omega ls v) (RtoC 0, RtoC 0)).
Proof.
  induction ls as [|l ls IH]; intros v j l1 l2 E1 E2; [destruct j; discriminate|]. destruct ls as [|m ls]; [destruct j as [|[|]]; discriminate|].
  destruct j as [|j].
  - cbn in E1, E2. injection E1 as ->. injection E2 as ->. destruct ls; reflexivity.
  - change (waves omega (l :: m :: ls) v) with (v :: waves omega (m :: ls) (step omega l m v)). cbn [nth]. apply IH; [exact E1|exact E2].
Qed.
Lemma waves_last omega : forall ls v, ls <> [] -> nth (length ls - 1) (waves omega ls v) (RtoC 0, RtoC 0) = final omega ls v.
Proof.
  induction ls as [|l ls IH]; intros v N; [congruence|]. destruct ls as [|m ls]; [reflexivity|].
  change (waves omega (l :: m :: ls) v) with (v :: waves omega (m :: ls) (step omega l m v)).
  replace (length (l :: m :: ls) - 1)%nat with (S (length (m :: ls) - 1)) by (cbn [length]; lia). cbn [nth]. rewrite final_cons. apply IH. discriminate.
Qed.

Theorem C23_motion_exists : forall omega ls A lst, 0 < omega -> column ls -> last ls (mklay 0 0 0 0) = lst ->
  exists u g, column_motion omega ls u g /\ upgoing omega lst (u (length ls - 1)%nat) A.
Proof.
  intros omega ls A lst W Cl EL. destruct (column_phys ls Cl) as [F N]. pose proof (incident_neq_0 omega ls W F N) as AN.
  set (c := Cdiv A (fst (final omega ls one2))). set (d0 := mklay 0 0 0 0).
  set (w := fun j => nth j (waves omega ls (vscal c one2)) (RtoC 0, RtoC 0)).
  set (k := fun j => k_star omega (nth j ls d0)).
  set (u := fun j z => Cplus (Cmult (fst (w j)) (up (k j) z)) (Cmult (snd (w j)) (down (k j) z))).
  set (g := fun j z => Cmult (Cmult Ci (k j)) (Cminus (Cmult (fst (w j)) (up (k j) z)) (Cmult (snd (w j)) (down (k j) z)))).
  assert (KE : forall j l, nth_error ls j = Some l -> k j = k_star omega l) by (intros j l E; unfold k; rewrite (nth_error_nth ls j d0 E); reflexivity).
  assert (PE : forall j l, nth_error ls j = Some l -> phys l) by (intros j l E; rewrite Forall_forall in F; apply F; eapply nth_error_In, E).
  exists u, g. split; [split; [|split]|].
  - intros j l E z. pose proof (KE j l E) as K. split.
    + eapply cderiv_eq; [apply cderiv_plus; apply cderiv_scal; apply cderiv_cexp|]. unfold g, up, down. ring.
    + exists (Copp (Cmult (Cmult (k j) (k j)) (u j z))). split.
      * unfold g. eapply cderiv_eq.
        { apply cderiv_scal. unfold Cminus. apply cderiv_plus; [apply cderiv_scal; apply cderiv_cexp|].
          apply (cderiv_eq _ _ (Cmult (Copp (snd (w j))) (Cmult (Cmult (Copp Ci) (k j)) (down (k j) z))));
            [|reflexivity].
          assert (D : cderiv (fun x => Cmult (Copp (snd (w j))) (down (k j) x)) z (Cmult (Copp (snd (w j))) (Cmult (Cmult (Copp Ci) (k j)) (down (k j) z)))) by (apply cderiv_scal, cderiv_cexp).
          destruct D as [D1 D2]. split; (eapply is_derive_ext; [|eassumption]); intros t; cbn beta; f_equal; ring. }
        unfold u. transitivity (Cmult (Cmult Ci Ci) (Cmult (Cmult (k j) (k j)) (Cplus (Cmult (fst (w j)) (up (k j) z)) (Cmult (snd (w j)) (down (k j) z))))); [unfold up, down; ring|].
        rewrite Ci_sq, RtoC_m1. ring.
      * transitivity (Copp (Cmult (Cmult (Gstar l) (Cmult (k j) (k j))) (u j z))); [ring|]. rewrite K, Gstar_kk by (apply (PE j l E)). rewrite RtoC_opp. ring.
  - unfold g, w. rewrite up_0, down_0. destruct ls as [|l0 ls]; [congruence|]. cbn [waves nth vscal fst snd one2]. ring.
  - intros j l1 l2 E1 E2. pose proof (waves_nth omega ls (vscal c one2) j l1 l2 E1 E2) as S. fold (w j) (w (Datatypes.S j)) in S.
    pose proof (KE j l1 E1) as K1. pose proof (KE _ l2 E2) as K2.
    pose proof (step_continuity omega l1 l2 (w j) (PE j l1 E1) (PE _ l2 E2)) as SC. rewrite <- S in SC. unfold at_bottom in SC.
    destruct (w (Datatypes.S j)) as [A' B'] eqn:EW. destruct SC as [S1 S2]. unfold u, g. rewrite EW, K1, K2, up_0, down_0. cbn [fst snd] in *. split.
    + unfold up, down. rewrite <- S1. ring.
    + rewrite !traction by eauto. unfold up, down. rewrite <- S2. ring.
  - exists (k_star omega lst). exists (Cmult c (snd (final omega ls one2))).
    assert (EN : nth_error ls (length ls - 1) = Some lst) by (rewrite <- EL; apply nth_error_last, N).
    pose proof (PE _ _ EN) as PL. split; [apply Gstar_kk, PL|]. split; [apply k_star_parts; assumption|].
    intros z. unfold u, w. rewrite waves_last by exact N. rewrite final_scal. rewrite (KE _ lst EN). cbn [vscal fst snd].
    replace (Cmult c (fst (final omega ls one2))) with A by (unfold c; field; exact AN). reflexivity.
Qed.

(** None of the three denominators vanishes at a positive frequency. *)
Theorem C23_denominators : forall omega ls, 0 < omega -> column ls ->
  let E := Emat omega ls in
  Cplus (m00 E) (m01 E) <> RtoC 0 /\ Cplus (Cplus (Cplus (m00 E) (m10 E)) (m01 E)) (m11 E) <> RtoC 0 /\
  tf_ro omega ls <> RtoC 0 /\ tf_in omega ls <> RtoC 0 /\ tf_bh omega ls <> RtoC 0.
Proof.
  intros omega ls W Cl E. destruct (column_phys ls Cl) as [F N]. destruct (Emat_sums omega ls N) as [E1 E2].
  pose proof (column_base omega ls W Cl) as BN. pose proof (incident_neq_0 omega ls W F N) as AN.
  unfold E. split; [rewrite E1; exact AN|]. split; [rewrite E2; exact BN|].
  destruct (tf_final omega ls N) as (T1 & T2 & T3). rewrite T1, T2, T3. unfold Cdiv.
  assert (INV : forall z, z <> RtoC 0 -> Cinv z <> RtoC 0).
  { intros z Z Q. pose proof (Cinv_r z Z) as I. rewrite Q, Cmult_0_r in I. apply RtoC_inj in I. lra. }
  repeat split; intros Q; apply C_integral in Q as [Q|Q]; try (apply RtoC_inj in Q; lra); eapply INV; try exact Q; assumption.
Qed.

(** The three functions are linked. *)
Theorem C23_links : forall omega ls, 0 < omega -> column ls ->
  tf_in omega ls = Cmult (RtoC 2) (tf_ro omega ls) /\
  (exists a b, a <> RtoC 0 /\ tf_ro omega ls = Cdiv (RtoC 1) a /\ tf_bh omega ls = Cdiv (RtoC 2) (Cplus a b)).
Proof.
  intros omega ls W Cl. destruct (column_phys ls Cl) as [F N]. destruct (tf_final omega ls N) as (T1 & T2 & T3).
  pose proof (incident_neq_0 omega ls W F N) as AN. rewrite T1, T2, T3. split; [field; exact AN|].
  exists (fst (final omega ls one2)), (snd (final omega ls one2)). auto.
Qed.

(** ** The base *)
Lemma final_app omega : forall init l1 l2 v, final omega (init ++ [l1; l2]) v = step omega l1 l2 (final omega (init ++ [l1]) v).
Proof.
  induction init as [|a init IH]; intros l1 l2 v; [reflexivity|]. cbn [app].
  destruct init as [|b init]; [reflexivity|]. cbn [app]. rewrite !final_cons. apply (IH l1 l2).
Qed.

(** The borehole function does not depend on the half space at all. *)
Theorem C23_borehole_ignores_half_space : forall omega init lst lst', 0 < omega -> init <> [] ->
  column (init ++ [lst]) -> column (init ++ [lst']) -> tf_bh omega (init ++ [lst]) = tf_bh omega (init ++ [lst']).
Proof.
  intros omega init lst lst' W N C1 C2. destruct (column_phys _ C1) as [F1 N1]. destruct (column_phys _ C2) as [F2 N2].
  destruct (exists_last N) as (i & l & ->). rewrite <- !app_assoc in *. cbn [app] in *.
  destruct (tf_final omega (i ++ [l; lst]) N1) as (_ & _ & T3). destruct (tf_final omega (i ++ [l; lst']) N2) as (_ & _ & T3'). rewrite T3, T3'.
  rewrite !final_app. set (v := final omega (i ++ [l]) one2).
  assert (P : forall x, Forall phys (i ++ [l; x]) -> phys l /\ phys x).
  { intros x F. apply Forall_app in F as [_ F]. inversion F as [|? ? P1 F']; subst. inversion F'; subst. auto. }
  destruct (P lst F1) as [Pl Pa]. destruct (P lst' F2) as [_ Pb].
  pose proof (step_continuity omega l lst v Pl Pa) as S1. pose proof (step_continuity omega l lst' v Pl Pb) as S2.
  destruct (at_bottom omega l v) as [a b]. destruct (step omega l lst v) as [A B]. destruct (step omega l lst' v) as [A' B'].
  cbn [fst snd]. rewrite (proj1 S1), (proj1 S2). reflexivity.
Qed.

(** As the half space becomes rigid, the outcrop function tends to the borehole one. *)
Theorem C23_rigid_base_limit : forall omega init eps, 0 < omega -> init <> [] -> Forall (fun l => phys l /\ 0 < l_xi l /\ 0 < l_h l) init -> 0 < eps ->
  exists M, forall lst, phys lst -> 0 < l_xi lst -> M < l_rho lst * l_vs lst ->
    Cmod (Cminus (tf_ro omega (init ++ [lst])) (tf_bh omega (init ++ [lst]))) < eps.
Proof.
  intros omega init eps W N Fi He. destruct (exists_last N) as (i & l & ->).
  assert (Pl : phys l /\ 0 < l_xi l /\ 0 < l_h l) by (apply Forall_app in Fi as [_ F]; inversion F; assumption). destruct Pl as (Pl & Xl & Hl).
  set (v := final omega (i ++ [l]) one2). destruct (at_bottom omega l v) as [a b] eqn:Eab.
  set (S := Cplus a b). set (D := Cmult (imp l) (Cminus a b)).
  assert (SN : S <> RtoC 0).
  { assert (C1 : column ((i ++ [l]) ++ [mklay 0 1 1 1])).
    { exists (i ++ [l]), (mklay 0 1 1 1). split; [reflexivity|]. split; [exact Fi|]. unfold phys. cbn. lra. }
    pose proof (column_base omega _ W C1) as BN. rewrite <- app_assoc in BN. cbn [app] in BN. rewrite final_app in BN. fold v in BN.
    pose proof (step_continuity omega l (mklay 0 1 1 1) v Pl ltac:(unfold phys; cbn; lra)) as SC. rewrite Eab in SC. destruct (step omega l (mklay 0 1 1 1) v) as [A B].
    cbn [fst snd] in BN. rewrite (proj1 SC) in BN. exact BN. }
  assert (Sp : 0 < Cmod S) by (apply Cmod_gt_0, SN).
  set (M := Rmax 0 (2 * Cmod D / Cmod S + 4 * Cmod D / (eps * (Cmod S * Cmod S)))).
  exists M. intros lst P X HM.
  assert (M0 : 0 <= M) by apply Rmax_l. assert (M1 : 2 * Cmod D / Cmod S + 4 * Cmod D / (eps * (Cmod S * Cmod S)) <= M) by apply Rmax_r.
  rewrite <- app_assoc. cbn [app].
  assert (C1 : column (i ++ [l; lst])).
  { exists (i ++ [l]), lst. rewrite <- app_assoc. split; [reflexivity|]. auto. }
  destruct (column_phys _ C1) as [F1 N1]. destruct (tf_final omega _ N1) as (T1 & _ & T3). rewrite T1, T3.
  pose proof (incident_neq_0 omega _ W F1 N1) as AN. rewrite final_app in *. fold v. fold v in AN.
  pose proof (step_continuity omega l lst v Pl P) as SC. rewrite Eab in SC. destruct (step omega l lst v) as [A B]. cbn [fst snd] in *.
  destruct SC as [S1 S2]. fold S in S1. fold D in S2. rewrite S1.
  set (Z := imp lst) in *. pose proof (imp_neq lst P) as ZN. fold Z in ZN.
  assert (T2 : RtoC 2 = Cplus (RtoC 1) (RtoC 1)) by (rewrite <- RtoC_plus; f_equal; ring).
  assert (N3 : Cplus (RtoC 1) (RtoC 1) <> RtoC 0) by (rewrite <- T2; apply RtoC_neq; lra).
  assert (EA : Cmult (RtoC 2) A = Cplus S (Cdiv D Z)).
  { replace (Cdiv D Z) with (Cminus A B) by (rewrite <- S2; field; exact ZN). rewrite <- S1, T2. ring. }
  assert (ZM : l_rho lst * l_vs lst <= Cmod Z).
  { unfold Z, imp. rewrite vs_star_eq, !Cmod_mult, !Cmod_R. destruct P as (V & Rh & Xx & _). rewrite !Rabs_pos_eq by lra.
    assert (1 <= Cmod (csqrt (damp (l_xi lst)))).
    { assert (Q : Cmod (csqrt (damp (l_xi lst))) * Cmod (csqrt (damp (l_xi lst))) = Cmod (damp (l_xi lst))) by (rewrite <- Cmod_mult, csqrt_sq; reflexivity).
      pose proof (Cmod_ge_0 (csqrt (damp (l_xi lst)))). pose proof (Cmod_Re_le (damp (l_xi lst))) as L. rewrite damp_Re, Rabs_R1 in L. nra. }
    assert (0 < l_rho lst * l_vs lst) by nra. nra. }
  set (q := Cmod D / Cmod Z). assert (Zp : 0 < Cmod Z) by (apply Cmod_gt_0, ZN). pose proof (Cmod_ge_0 D) as D0.
  assert (EQ : Cmod (Cdiv D Z) = q) by (apply Cmod_div, ZN).
  assert (DEF : Cminus (Cdiv (RtoC 1) A) (Cdiv (RtoC 2) S) = Cdiv (Cmult (RtoC (-2)) (Cdiv D Z)) (Cmult (Cmult (RtoC 2) A) S)).
  { replace (Cdiv D Z) with (Cminus (Cmult (RtoC 2) A) S) by (rewrite EA; ring). replace (RtoC (-2)) with (Copp (RtoC 2)) by (rewrite <- RtoC_opp; reflexivity). rewrite T2. field. repeat split; assumption. }
  rewrite DEF.
  assert (N2A : Cmult (RtoC 2) A <> RtoC 0) by (intros Q; apply C_integral in Q as [Q|Q]; [apply RtoC_inj in Q; lra|contradiction]).
  assert (NPr : Cmult (Cmult (RtoC 2) A) S <> RtoC 0) by (intros Q; apply C_integral in Q as [Q|Q]; contradiction).
  rewrite Cmod_div by exact NPr. rewrite (Cmod_mult (RtoC (-2))), (Cmod_mult _ S), Cmod_R, EQ. replace (Rabs (-2)) with 2 by (rewrite Rabs_left; lra).
  assert (EL2 : Cmod S - q <= Cmod (Cmult (RtoC 2) A)).
  { rewrite EA. pose proof (Cmod_triangle (Cplus S (Cdiv D Z)) (Copp (Cdiv D Z))) as T. rewrite Cmod_opp, EQ in T. replace (Cplus (Cplus S (Cdiv D Z)) (Copp (Cdiv D Z))) with S in T by ring. lra. }
  assert (u1 : 0 <= 2 * Cmod D / Cmod S) by (apply Rmult_le_pos; [lra|left; apply Rinv_0_lt_compat; exact Sp]).
  assert (eS : 0 < eps * (Cmod S * Cmod S)) by (apply Rmult_lt_0_compat; [exact He|nra]).
  assert (u2 : 0 <= 4 * Cmod D / (eps * (Cmod S * Cmod S))) by (apply Rmult_le_pos; [lra|left; apply Rinv_0_lt_compat; exact eS]).
  assert (Q1 : q <= Cmod S / 2).
  { unfold q. apply Rmult_le_reg_r with (Cmod Z); [exact Zp|]. replace (Cmod D / Cmod Z * Cmod Z) with (Cmod D) by (field; lra).
    assert (Y : 2 * Cmod D / Cmod S < Cmod Z) by lra. apply (Rmult_lt_compat_r (Cmod S)) in Y; [|exact Sp].
    replace (2 * Cmod D / Cmod S * Cmod S) with (2 * Cmod D) in Y by (field; lra). nra. }
  assert (Q2 : 4 * q < eps * (Cmod S * Cmod S)).
  { unfold q. apply Rmult_lt_reg_r with (Cmod Z); [exact Zp|]. replace (4 * (Cmod D / Cmod Z) * Cmod Z) with (4 * Cmod D) by (field; lra).
    assert (Y : 4 * Cmod D / (eps * (Cmod S * Cmod S)) < Cmod Z) by lra. apply (Rmult_lt_compat_r (eps * (Cmod S * Cmod S))) in Y; [|exact eS].
    replace (4 * Cmod D / (eps * (Cmod S * Cmod S)) * (eps * (Cmod S * Cmod S))) with (4 * Cmod D) in Y by (field; lra). lra. }
  assert (q0 : 0 <= q) by (rewrite <- EQ; apply Cmod_ge_0).
  set (x := Cmod (Cmult (RtoC 2) A)) in *. set (s := Cmod S) in *. clearbody x s q.
  assert (xs : s / 2 <= x) by lra. assert (xp : 0 < x * s) by nra.
  apply Rmult_lt_reg_r with (x * s); [exact xp|]. replace (2 * q / (x * s) * (x * s)) with (2 * q) by (field; split; nra).
  assert (Y1 : s * s / 2 <= x * s) by nra. assert (Y2 : eps * (s * s / 2) <= eps * (x * s)) by (apply Rmult_le_compat_l; lra). lra.
Qed.

(** ** Refining layers *)

(** Cutting a layer above the half space into two of the same material changes none
    of the three functions. *)
Definition thick (l : lay) (h : R) : lay := mklay h (l_vs l) (l_xi l) (l_rho l).
Lemma alpha_same l h : phys l -> alpha_star (thick l h) l = RtoC 1.
Proof. intros P. unfold alpha_star. change (vs_star (thick l h)) with (vs_star l). cbn [l_rho thick]. fold (imp l). field. apply imp_neq, P. Qed.
Lemma step_same omega l h1 h2 v : phys l -> step omega (thick l h1) (thick l h2) v = at_bottom omega (thick l h1) v.
Proof.
  intros P. unfold step. replace (alpha_star (thick l h1) (thick l h2)) with (RtoC 1).
  2:{ symmetry. apply (alpha_same l h1 P). }
  destruct (at_bottom omega (thick l h1) v) as [a b].
  assert (T2 : RtoC 2 = Cplus (RtoC 1) (RtoC 1)) by (rewrite <- RtoC_plus; f_equal; ring).
  assert (HH : Cmult (RtoC (1 / 2)) (RtoC 2) = RtoC 1) by (rewrite <- RtoC_mult; f_equal; field). rewrite T2 in HH.
  f_equal; [transitivity (Cmult (Cmult (RtoC (1 / 2)) (Cplus (RtoC 1) (RtoC 1))) a)|transitivity (Cmult (Cmult (RtoC (1 / 2)) (Cplus (RtoC 1) (RtoC 1))) b)]; try ring; rewrite HH; ring.
Qed.
Lemma at_bottom_add omega l h1 h2 v : at_bottom omega (thick l h2) (at_bottom omega (thick l h1) v) = at_bottom omega (thick l (h1 + h2)) v.
Proof.
  unfold at_bottom. cbn [fst snd]. change (k_star omega (thick l h1)) with (k_star omega l). change (k_star omega (thick l h2)) with (k_star omega l). change (k_star omega (thick l (h1 + h2))) with (k_star omega l).
  cbn [l_h thick]. rewrite <- !Cmult_assoc, <- !cexp_plus. f_equal; f_equal; f_equal; rewrite RtoC_plus; ring.
Qed.
Lemma step_thick omega l h l2 v : step omega (thick l h) l2 v =
  let (a, b) := at_bottom omega (thick l h) v in let al := alpha_star l l2 in
  (Cmult (RtoC (1 / 2)) (Cplus (Cmult (Cplus (RtoC 1) al) a) (Cmult (Cminus (RtoC 1) al) b)),
   Cmult (RtoC (1 / 2)) (Cplus (Cmult (Cminus (RtoC 1) al) a) (Cmult (Cplus (RtoC 1) al) b))).
Proof. reflexivity. Qed.
Lemma step_to_thick omega l1 l h v : step omega l1 (thick l h) v = step omega l1 l v.
Proof. reflexivity. Qed.

Lemma final_split omega : forall pre l h1 h2 l2 post v, phys l ->
  final omega (pre ++ thick l h1 :: thick l h2 :: l2 :: post) v = final omega (pre ++ thick l (h1 + h2) :: l2 :: post) v.
Proof.
  induction pre as [|p pre IH]; intros l h1 h2 l2 post v P.
  - cbn [app]. rewrite !final_cons. f_equal. rewrite step_same by exact P. rewrite !step_thick, at_bottom_add. reflexivity.
  - cbn [app]. destruct pre as [|q pre].
    + cbn [app]. rewrite (final_cons omega p), (final_cons omega p), !step_to_thick. apply (IH l h1 h2 l2 post (step omega p l v) P).
    + cbn [app]. rewrite (final_cons omega p), (final_cons omega p). apply (IH l h1 h2 l2 post (step omega p q v) P).
Qed.
Theorem C23_splitting_a_layer : forall omega pre l h1 h2 l2 post, phys l ->
  let cut := pre ++ thick l h1 :: thick l h2 :: l2 :: post in
  let whole := pre ++ thick l (h1 + h2) :: l2 :: post in
  tf_ro omega cut = tf_ro omega whole /\ tf_in omega cut = tf_in omega whole /\ tf_bh omega cut = tf_bh omega whole.
Proof.
  intros omega pre l h1 h2 l2 post P cut whole. assert (N1 : cut <> []) by (unfold cut; destruct pre; discriminate). assert (N2 : whole <> []) by (unfold whole; destruct pre; discriminate).
  destruct (tf_final omega cut N1) as (-> & -> & ->). destruct (tf_final omega whole N2) as (-> & -> & ->).
  unfold cut, whole. rewrite final_split by exact P. auto.
Qed.

(** The thickness given to the half space plays no part. *)
Lemma final_last_thick omega : forall pre l h v, final omega (pre ++ [thick l h]) v = final omega (pre ++ [l]) v.
Proof.
  induction pre as [|p pre IH]; intros l h v; [reflexivity|]. cbn [app]. destruct pre as [|q pre].
  - reflexivity.
  - cbn [app]. rewrite !final_cons. apply (IH l h).
Qed.
Theorem C23_half_space_thickness : forall omega pre l h,
  tf_ro omega (pre ++ [thick l h]) = tf_ro omega (pre ++ [l]) /\ tf_in omega (pre ++ [thick l h]) = tf_in omega (pre ++ [l]) /\ tf_bh omega (pre ++ [thick l h]) = tf_bh omega (pre ++ [l]).
Proof.
  intros omega pre l h. assert (N1 : pre ++ [thick l h] <> []) by (destruct pre; discriminate). assert (N2 : pre ++ [l] <> []) by (destruct pre; discriminate).
  destruct (tf_final omega _ N1) as (-> & -> & ->). destruct (tf_final omega _ N2) as (-> & -> & ->). rewrite final_last_thick. auto.
Qed.

(** Only density ratios matter: any unit of density gives the same functions. *)
Definition dens (c : R) (l : lay) : lay := mklay (l_h l) (l_vs l) (l_xi l) (c * l_rho l).
Lemma alpha_dens c l1 l2 : c <> 0 -> l_rho l2 <> 0 -> vs_star l2 <> RtoC 0 -> alpha_star (dens c l1) (dens c l2) = alpha_star l1 l2.
Proof.
  intros H R2 V2. unfold alpha_star. change (vs_star (dens c l1)) with (vs_star l1). change (vs_star (dens c l2)) with (vs_star l2). cbn [l_rho dens].
  rewrite !RtoC_mult. field. repeat split; [exact V2|apply RtoC_neq, R2|apply RtoC_neq, H].
Qed.
Lemma final_dens omega c : c <> 0 -> forall ls v, Forall phys ls -> final omega (map (dens c) ls) v = final omega ls v.
Proof.
  intros H. induction ls as [|l1 ls IH]; intros v F; [reflexivity|]. destruct ls as [|l2 ls]; [reflexivity|].
  inversion F as [|? ? P1 F']; subst. inversion F' as [|? ? P2 _]; subst.
  cbn [map]. rewrite !final_cons. change (dens c l2 :: map (dens c) ls) with (map (dens c) (l2 :: ls)). rewrite IH by exact F'. f_equal.
  unfold step, at_bottom. change (k_star omega (dens c l1)) with (k_star omega l1). cbn [l_h dens].
  rewrite alpha_dens; [reflexivity|exact H|destruct P2 as (_ & R2 & _); lra|apply vs_star_neq, P2].
Qed.
Theorem C23_density_unit : forall omega c ls, c <> 0 -> Forall phys ls -> ls <> [] ->
  tf_ro omega (map (dens c) ls) = tf_ro omega ls /\ tf_in omega (map (dens c) ls) = tf_in omega ls /\ tf_bh omega (map (dens c) ls) = tf_bh omega ls.
Proof.
  intros omega c ls H F N. assert (N1 : map (dens c) ls <> []) by (destruct ls; [congruence|discriminate]).
  destruct (tf_final omega _ N1) as (-> & -> & ->). destruct (tf_final omega _ N) as (-> & -> & ->). rewrite final_dens by assumption. auto.
Qed.

(** ** Stratified profiles *)
Lemma thick_self l : thick l (l_h l) = l.
Proof. destruct l. reflexivity. Qed.
Lemma final_group omega l l2 post : phys l -> forall hs h pre v,
  final omega (pre ++ map (thick l) (h :: hs) ++ l2 :: post) v = final omega (pre ++ thick l (rsum (h :: hs)) :: l2 :: post) v.
Proof.
  intros P. induction hs as [|h2 hs IH]; intros h pre v.
  - cbn [map app rsum]. rewrite Rplus_0_r. reflexivity.
  - transitivity (final omega (pre ++ thick l h :: thick l (rsum (h2 :: hs)) :: l2 :: post) v).
    + specialize (IH h2 (pre ++ [thick l h]) v). rewrite <- !app_assoc in IH. cbn [app map] in IH |- *. exact IH.
    + rewrite final_split by exact P. reflexivity.
Qed.
Definition cut_into (l : lay) (g : list lay) : Prop := exists h hs, g = map (thick l) (h :: hs) /\ rsum (h :: hs) = l_h l.
Lemma final_groups omega lst : forall ls gs pre v, Forall phys ls -> Forall2 cut_into ls gs ->
  final omega (pre ++ concat gs ++ [lst]) v = final omega (pre ++ ls ++ [lst]) v.
Proof.
  induction ls as [|l ls IH]; intros gs pre v F H; inversion H as [|? g ? gs' (h & hs & Eg & Eh) H']; subst; [reflexivity|].
  inversion F as [|? ? P F']; subst. cbn [concat]. rewrite <- app_assoc.
  assert (NE : exists l2 post, concat gs' ++ [lst] = l2 :: post) by (destruct (concat gs' ++ [lst]) eqn:Q; [destruct (concat gs'); discriminate|eauto]).
  destruct NE as (l2 & post & Q). rewrite Q, final_group by exact P. rewrite Eh, thick_self, <- Q.
  specialize (IH gs' (pre ++ [l]) v F' H'). rewrite <- !app_assoc in IH. cbn [app] in IH |- *. exact IH.
Qed.

Definition lay_of_row (r : row) : lay := mklay (r_h r) (r_vs r) (nth 0 (r_rest r) 0) (nth 1 (r_rest r) 0).

(** Stratifying a profile whose layers keep their thickness (see
    [C06_total_thickness_kept]) changes none of the transfer functions. *)
Theorem C23_stratified : forall omega p lst q, last_res p = Ok lst -> r_h lst = 0 ->
  Forall (fun r => phys (lay_of_row r) /\ 0 < r_h r /\ (r_h r <= r_vs r / 225 \/ ~ near_integer (r_h r / (r_vs r / 225)))) (removelast p) ->
  stratify p = Ok q ->
  tf_ro omega (map lay_of_row q) = tf_ro omega (map lay_of_row p) /\
  tf_in omega (map lay_of_row q) = tf_in omega (map lay_of_row p) /\
  tf_bh omega (map lay_of_row q) = tf_bh omega (map lay_of_row p).
Proof.
  intros omega p lst q EL EH F ES. unfold stratify in ES. rewrite EL in ES. cbn [bind] in ES. rewrite (proj2 (Reqb_true _ _) EH) in ES. injection ES as <-.
  assert (Ep : p = removelast p ++ [lst]).
  { unfold last_res in EL. destruct (rev p) as [|x r] eqn:Er; [discriminate|]. injection EL as ->.
    assert (p = rev r ++ [lst]) by (rewrite <- (rev_involutive p), Er; reflexivity). subst p. rewrite removelast_last. reflexivity. }
  set (init := removelast p) in *. clearbody init. subst p.
  assert (N1 : map lay_of_row (flat_map sublayers init ++ [mkrow 0 (r_vs lst) (r_rest lst)]) <> []) by (rewrite map_app; destruct (map lay_of_row (flat_map sublayers init)); discriminate).
  assert (N2 : map lay_of_row (init ++ [lst]) <> []) by (rewrite map_app; destruct (map lay_of_row init); discriminate).
  destruct (tf_final omega _ N1) as (-> & -> & ->). destruct (tf_final omega _ N2) as (-> & -> & ->).
  assert (E : final omega (map lay_of_row (flat_map sublayers init ++ [mkrow 0 (r_vs lst) (r_rest lst)])) one2 = final omega (map lay_of_row (init ++ [lst])) one2).
  { rewrite !map_app. cbn [map].
    replace (lay_of_row (mkrow 0 (r_vs lst) (r_rest lst))) with (lay_of_row lst) by (unfold lay_of_row; cbn; rewrite EH; reflexivity).
    pose proof (final_groups omega (lay_of_row lst) (map lay_of_row init) (map (fun r => map lay_of_row (sublayers r)) init) [] one2) as G. cbn [app] in G.
    rewrite flat_map_concat_map, concat_map, map_map. apply G; clear G N1 N2.
    - rewrite Forall_map. eapply Forall_impl; [|exact F]. intros r H. apply H.
    - clear EL. induction F as [|r init (P & H & K) F IH]; cbn [map]; constructor; [|apply IH].
      destruct (sublayers_spec r H ltac:(apply P)) as (_ & T & _). specialize (T K). unfold total_h in T.
      assert (SH : exists hs, sublayers r = map (fun h => mkrow h (r_vs r) (r_rest r)) hs).
      { unfold sublayers. destruct Rleb; [exists [r_h r]; destruct r; reflexivity|].
        match goal with |- exists _, repeat (mkrow ?h _ _) ?n = _ => exists (repeat h n); generalize h; generalize n; intros k y; induction k as [|k IHk]; [reflexivity|cbn; f_equal; exact IHk] end. }
      destruct SH as (hs & SH). rewrite SH in T |- *. rewrite map_map in T. cbn [r_h] in T. rewrite map_id in T.
      destruct hs as [|h hs]; [cbn in T; lra|]. exists h, hs. rewrite map_map. split; [reflexivity|exact T]. }
  rewrite E. auto.
Qed.

(** ** Closed forms *)
Lemma up_add k a b : Cmult (up k a) (up k b) = up k (a + b).
Proof. unfold up. rewrite <- cexp_plus. f_equal. rewrite RtoC_plus. ring. Qed.
Lemma down_add k a b : Cmult (down k a) (down k b) = down k (a + b).
Proof. unfold down. rewrite <- cexp_plus. f_equal. rewrite RtoC_plus. ring. Qed.

(** A column of one material over a half space of the same material, cut in any way:
    the outcrop function is a delay (with decay) over the total thickness [H], and
    amplifies nothing. *)
Lemma final_uniform omega l : phys l -> forall hs h0 v, final omega (map (thick l) (hs ++ [h0])) v = at_bottom omega (thick l (rsum hs)) v.
Proof.
  intros P. induction hs as [|h hs IH]; intros h0 v.
  - cbn [app map final rsum]. unfold at_bottom. cbn [l_h thick]. rewrite !Cmult_0_r, !cexp_0. destruct v. cbn [fst snd]. f_equal; ring.
  - cbn [app map]. specialize (IH h0). destruct (hs ++ [h0]) as [|h2 rest] eqn:Q; [destruct hs; discriminate|]. cbn [map] in *.
    rewrite final_cons, IH, step_same by exact P. rewrite at_bottom_add. reflexivity.
Qed.
Theorem C23_uniform_column : forall omega l hs h0, phys l -> 0 < omega -> Forall (fun h => 0 <= h) hs ->
  let ls := map (thick l) (hs ++ [h0]) in let k := k_star omega l in let H := rsum hs in
  tf_ro omega ls = down k H /\ tf_in omega ls = Cmult (RtoC 2) (down k H) /\
  tf_bh omega ls = Cdiv (RtoC 2) (Cplus (up k H) (down k H)) /\
  Cmod (tf_ro omega ls) = exp (Im k * H) /\ Cmod (tf_ro omega ls) <= 1 /\ (l_xi l = 0 -> Cmod (tf_ro omega ls) = 1).
Proof.
  intros omega l hs h0 P W Fh ls k H. assert (N : ls <> []) by (unfold ls; rewrite map_app; destruct (map (thick l) hs); discriminate).
  destruct (tf_final omega ls N) as (T1 & T2 & T3). unfold ls in *. rewrite final_uniform in T1, T2, T3 by exact P.
  unfold at_bottom, one2 in T1, T2, T3. cbn [fst snd l_h thick] in T1, T2, T3. change (k_star omega (thick l (rsum hs))) with k in T1, T2, T3. fold H in T1, T2, T3.
  change (cexp (Cmult (Cmult Ci k) (RtoC H))) with (up k H) in T1, T2, T3. change (cexp (Cmult (Cmult (Copp Ci) k) (RtoC H))) with (down k H) in T1, T2, T3.
  assert (UN : up k H <> RtoC 0) by apply cexp_neq_0. pose proof (up_down k H) as UD.
  assert (R1 : tf_ro omega (map (thick l) (hs ++ [h0])) = down k H).
  { rewrite T1. transitivity (Cdiv (Cmult (up k H) (down k H)) (up k H)); [rewrite UD; field|field]; exact UN. }
  assert (H0 : 0 <= H).
  { unfold H. clear - Fh. induction Fh as [|h hs Hh F IH]; cbn; lra. }
  assert (M : Cmod (tf_ro omega (map (thick l) (hs ++ [h0]))) = exp (Im k * H)).
  { rewrite R1. unfold down, cexp. rewrite Cmod_mult, cis_mod, Cmod_R, Rabs_pos_eq by (left; apply exp_pos). rewrite Rmult_1_r. f_equal.
    unfold Ci, Cmult, Copp, RtoC, Re, Im. cbn [fst snd]. ring. }
  split; [exact R1|]. split.
  { rewrite T2. transitivity (Cdiv (Cmult (RtoC 2) (Cmult (up k H) (down k H))) (up k H)); [rewrite UD; field|field]; exact UN. }
  split; [rewrite T3; f_equal; ring|]. split; [exact M|]. rewrite M. destruct (k_star_parts omega l P W) as (_ & K2 & _). fold k in K2. split.
  - rewrite <- exp_0. destruct (Req_dec (Im k * H) 0) as [->|NZ]; [lra|]. left. apply exp_increasing. nra.
  - intros X. replace (Im k * H) with 0; [apply exp_0|].
    assert (V : Im (vs_star l) = 0).
    { rewrite vs_star_eq, Im_mult, Re_R, Im_R, X. unfold csqrt. rewrite damp_Re, damp_Im. unfold Im. cbn [snd].
      assert (MD : Cmod (damp 0) = 1). { replace (damp 0) with (RtoC 1) by (apply C_eq; [rewrite damp_Re; reflexivity|rewrite damp_Im, Im_R; ring]). apply Cmod_1. }
      rewrite MD. replace ((1 - 1) / 2) with 0 by field. rewrite sqrt_0. ring. }
    assert (E : Cmult (k_star omega l) (vs_star l) = RtoC omega) by (unfold k_star; field; apply vs_star_neq, P).
    pose proof (f_equal Im E) as Q. rewrite Im_mult, Im_R, V in Q. pose proof (vs_star_Re l P). fold k in Q. assert (Im k = 0) by nra. rewrite H2. ring.
Qed.

(** One layer over a half space (the textbook formula). *)
Theorem C23_single_layer : forall omega l lst, phys l -> phys lst -> 0 < omega ->
  let k := k_star omega l in let h := l_h l in let al := Cdiv (imp l) (imp lst) in
  let ccos := Cdiv (Cplus (up k h) (down k h)) (RtoC 2) in let isin := Cdiv (Cminus (up k h) (down k h)) (RtoC 2) in
  tf_ro omega [l; lst] = Cdiv (RtoC 1) (Cplus ccos (Cmult al isin)) /\ tf_bh omega [l; lst] = Cdiv (RtoC 1) ccos.
Proof.
  intros omega l lst P1 P2 W k h al ccos isin. assert (N : [l; lst] <> []) by discriminate.
  destruct (tf_final omega [l; lst] N) as (T1 & _ & T3). rewrite T1, T3. clear T1 T3.
  pose proof (incident_neq_0 omega [l; lst] W ltac:(constructor; [assumption|constructor; [assumption|constructor]]) N) as AN.
  cbn [final] in AN |- *. pose proof (step_continuity omega l lst one2 P1 P2) as SC. destruct (step omega l lst one2) as [A B]. unfold at_bottom, one2 in SC. cbn [fst snd] in *.
  fold k h in SC. change (cexp (Cmult (Cmult Ci k) (RtoC h))) with (up k h) in SC. change (cexp (Cmult (Cmult (Copp Ci) k) (RtoC h))) with (down k h) in SC. destruct SC as [S1 S2].
  assert (T2 : RtoC 2 = Cplus (RtoC 1) (RtoC 1)) by (rewrite <- RtoC_plus; f_equal; ring).
  assert (N3 : Cplus (RtoC 1) (RtoC 1) <> RtoC 0) by (rewrite <- T2; apply RtoC_neq; lra). pose proof (imp_neq lst P2) as ZN.
  assert (D : Cminus A B = Cmult al (Cminus (up k h) (down k h))).
  { unfold al. transitivity (Cdiv (Cmult (imp lst) (Cminus A B)) (imp lst)); [field; exact ZN|]. rewrite S2. field. exact ZN. }
  assert (S : Cplus A B = Cplus (up k h) (down k h)) by (rewrite S1; ring).
  assert (EA : Cplus ccos (Cmult al isin) = A).
  { unfold ccos, isin. transitivity (Cdiv (Cplus (Cplus (up k h) (down k h)) (Cmult al (Cminus (up k h) (down k h)))) (RtoC 2)); [rewrite T2; field; exact N3|].
    rewrite <- D, <- S, T2. field. exact N3. }
  rewrite EA. split; [reflexivity|]. rewrite S. unfold ccos, Cdiv. rewrite Cmult_1_l.
  destruct (Ceq_dec (Cplus (up k h) (down k h)) (RtoC 0)) as [Z|Z].
  - rewrite Z, Cmult_0_l. unfold Cinv. cbn. apply C_eq; cbn; unfold Rdiv; rewrite ?Rinv_0; ring_simplify; try reflexivity; field_simplify; try reflexivity; lra.
  - rewrite T2. field. split; [exact N3|exact Z].
Qed.

(** Without damping a single layer resonates: at a quarter wavelength the motion at
    the base of the layer vanishes, so the borehole denominator of
    [C23_denominators] needs the damping that the validator demands. *)
Theorem C23_undamped_resonance : forall h vs rho lst, 0 < h -> 0 < vs -> 0 < rho -> phys lst ->
  let l := mklay h vs 0 rho in let omega := PI / 2 * (vs / h) in let E := Emat omega [l; lst] in
  Cplus (Cplus (Cplus (m00 E) (m10 E)) (m01 E)) (m11 E) = RtoC 0.
Proof.
  intros h vs rho lst Hh Hv Hr P2 l omega E.
  assert (P1 : phys l) by (unfold phys, l; cbn; lra).
  destruct (Emat_sums omega [l; lst] ltac:(discriminate)) as [_ E2]. unfold E. rewrite E2. cbn [final].
  pose proof (step_continuity omega l lst one2 P1 P2) as SC. destruct (step omega l lst one2) as [A B]. unfold at_bottom, one2 in SC. cbn [fst snd] in *. rewrite (proj1 SC). clear SC E2.
  assert (V : vs_star l = RtoC vs).
  { rewrite vs_star_eq. cbn [l_vs l_xi l].
    assert (D1 : damp 0 = RtoC 1) by (apply C_eq; [rewrite damp_Re; reflexivity|rewrite damp_Im, Im_R; ring]). rewrite D1.
    unfold csqrt. rewrite Cmod_1, Re_R, Im_R. destruct (Rltb_spec 0 0) as [Q|Q]; [lra|]. replace ((1 + 1) / 2) with 1 by field. replace ((1 - 1) / 2) with 0 by field.
    rewrite sqrt_1, sqrt_0. unfold Cmult, RtoC. cbn. f_equal; ring. }
  assert (K : k_star omega l = RtoC (PI / 2 / h)).
  { unfold k_star. rewrite V, <- RtoC_div by lra. f_equal. unfold omega. field. lra. }
  destruct (exponents omega l) as [-> ->]. rewrite K, Re_R, Im_R. cbn [l_h l]. replace (PI / 2 / h * h) with (PI / 2) by (field; lra).
  replace (-0 * h) with 0 by ring. rewrite Ropp_0, exp_0. unfold cis. rewrite cos_neg, sin_neg, cos_PI2, sin_PI2. unfold Cmult, Cplus, RtoC. cbn. f_equal; ring.
Qed.

(** ** Low frequencies *)
Lemma at_bottom_0 l v : at_bottom 0 l v = v.
Proof.
  assert (K : k_star 0 l = RtoC 0) by (unfold k_star, Cdiv; apply Cmult_0_l).
  unfold at_bottom. rewrite K, !Cmult_0_r, !Cmult_0_l, cexp_0. destruct v. cbn [fst snd]. f_equal; ring.
Qed.
Lemma final_0 : forall ls, final 0 ls one2 = one2.
Proof.
  induction ls as [|l1 ls IH]; [reflexivity|]. destruct ls as [|l2 ls]; [reflexivity|]. rewrite final_cons.
  replace (step 0 l1 l2 one2) with one2; [exact IH|]. unfold step. rewrite at_bottom_0. unfold one2.
  assert (HH : Cmult (RtoC (1 / 2)) (Cplus (RtoC 1) (RtoC 1)) = RtoC 1) by (rewrite <- RtoC_plus, <- RtoC_mult; f_equal; field).
  f_equal; symmetry; (transitivity (Cmult (RtoC (1 / 2)) (Cplus (RtoC 1) (RtoC 1))); [ring|exact HH]).
Qed.

Definition ccont (f : R -> C) (x : R) : Prop := continuous (fun t => Re (f t)) x /\ continuous (fun t => Im (f t)) x.
Lemma ccont_const c x : ccont (fun _ => c) x.
Proof. split; apply continuous_const. Qed.
Lemma ccont_plus f g x : ccont f x -> ccont g x -> ccont (fun t => Cplus (f t) (g t)) x.
Proof.
  intros [A1 A2] [B1 B2]. split; unfold Cplus, Re, Im in *; cbn [fst snd].
  - apply (continuous_plus (fun t => fst (f t)) (fun t => fst (g t))); assumption.
  - apply (continuous_plus (fun t => snd (f t)) (fun t => snd (g t))); assumption.
Qed.
Lemma ccont_mult f g x : ccont f x -> ccont g x -> ccont (fun t => Cmult (f t) (g t)) x.
Proof.
  intros [A1 A2] [B1 B2]. split; unfold Cmult, Re, Im in *; cbn [fst snd].
  - apply (continuous_minus (fun t => fst (f t) * fst (g t)) (fun t => snd (f t) * snd (g t)));
      [apply (continuous_mult (fun t => fst (f t)) (fun t => fst (g t)))|apply (continuous_mult (fun t => snd (f t)) (fun t => snd (g t)))]; assumption.
  - apply (continuous_plus (fun t => fst (f t) * snd (g t)) (fun t => snd (f t) * fst (g t)));
      [apply (continuous_mult (fun t => fst (f t)) (fun t => snd (g t)))|apply (continuous_mult (fun t => snd (f t)) (fun t => fst (g t)))]; assumption.
Qed.
Lemma ccont_deriv f x d : cderiv f x d -> ccont f x.
Proof. intros [D1 D2]. split; [apply (ex_derive_continuous (fun t => Re (f t)))|apply (ex_derive_continuous (fun t => Im (f t)))]; eexists; eassumption. Qed.
Lemma ccont_ext f g x : (forall t, f t = g t) -> ccont f x -> ccont g x.
Proof. intros E [A B]. split; [apply (continuous_ext (fun t => Re (f t)))|apply (continuous_ext (fun t => Im (f t)))]; try assumption; intros t; rewrite E; reflexivity. Qed.

Lemma at_bottom_cont l (v : R -> C * C) x : ccont (fun w => fst (v w)) x -> ccont (fun w => snd (v w)) x ->
  ccont (fun w => fst (at_bottom w l (v w))) x /\ ccont (fun w => snd (at_bottom w l (v w))) x.
Proof.
  intros A B. unfold at_bottom. cbn [fst snd]. split; apply ccont_mult; auto.
  - eapply ccont_ext; [|eapply ccont_deriv; apply (cderiv_cexp (Cmult (Cmult Ci (Cinv (vs_star l))) (RtoC (l_h l))) x)].
    intros t. cbn beta. f_equal. unfold k_star, Cdiv. ring.
  - eapply ccont_ext; [|eapply ccont_deriv; apply (cderiv_cexp (Cmult (Cmult (Copp Ci) (Cinv (vs_star l))) (RtoC (l_h l))) x)].
    intros t. cbn beta. f_equal. unfold k_star, Cdiv. ring.
Qed.
Lemma final_cont x : forall ls (v : R -> C * C), ccont (fun w => fst (v w)) x -> ccont (fun w => snd (v w)) x ->
  ccont (fun w => fst (final w ls (v w))) x /\ ccont (fun w => snd (final w ls (v w))) x.
Proof.
  induction ls as [|l1 ls IH]; intros v A B; [auto|]. destruct ls as [|l2 ls]; [auto|].
  destruct (at_bottom_cont l1 v x A B) as [C1 C2].
  apply (IH (fun w => step w l1 l2 (v w))); unfold step.
  - eapply ccont_ext with (f := fun w => Cmult (RtoC (1 / 2)) (Cplus (Cmult (Cplus (RtoC 1) (alpha_star l1 l2)) (fst (at_bottom w l1 (v w)))) (Cmult (Cminus (RtoC 1) (alpha_star l1 l2)) (snd (at_bottom w l1 (v w)))))).
    + intros w. destruct (at_bottom w l1 (v w)). reflexivity.
    + apply ccont_mult; [apply ccont_const|]. apply ccont_plus; apply ccont_mult; auto; apply ccont_const.
  - eapply ccont_ext with (f := fun w => Cmult (RtoC (1 / 2)) (Cplus (Cmult (Cminus (RtoC 1) (alpha_star l1 l2)) (fst (at_bottom w l1 (v w)))) (Cmult (Cplus (RtoC 1) (alpha_star l1 l2)) (snd (at_bottom w l1 (v w)))))).
    + intros w. destruct (at_bottom w l1 (v w)). reflexivity.
    + apply ccont_mult; [apply ccont_const|]. apply ccont_plus; apply ccont_mult; auto; apply ccont_const.
Qed.
Lemma ccont_Cmod_inv f x c : ccont f x -> f x = c -> c <> RtoC 0 -> continuous (fun t => Cmod (Cinv (f t))) x.
Proof.
  intros [A B] E N.
  assert (Np : 0 < nsq c) by (apply nsq_pos, N).
  apply (continuous_ext (fun t => / Cmod (f t))).
  { intros t. destruct (Ceq_dec (f t) (RtoC 0)) as [Z|Z].
    - rewrite Z, Cmod_0, Rinv_0. symmetry. replace (Cinv (RtoC 0)) with (RtoC 0); [apply Cmod_0|]. unfold Cinv, RtoC. cbn. f_equal; unfold Rdiv; ring.
    - symmetry. apply Cmod_inv. exact Z. }
  apply (continuous_Rinv_comp (fun t => Cmod (f t))).
  - unfold Cmod. apply (continuous_sqrt_comp (fun t => fst (f t) ^ 2 + snd (f t) ^ 2)).
    apply (continuous_plus (fun t => fst (f t) ^ 2) (fun t => snd (f t) ^ 2)).
    + apply (continuous_ext (fun t => fst (f t) * fst (f t))); [intros; cbn; ring|]. apply (continuous_mult (fun t => fst (f t)) (fun t => fst (f t))); exact A.
    + apply (continuous_ext (fun t => snd (f t) * snd (f t))); [intros; cbn; ring|]. apply (continuous_mult (fun t => snd (f t)) (fun t => snd (f t))); exact B.
  - rewrite E. intros Z. apply N. apply Cmod_eq_0, Z.
Qed.

(** At vanishing frequency nothing is amplified: the amplitudes tend to 1, 2 and 1. *)
Theorem C23_static_limit : forall ls, ls <> [] ->
  (tf_ro 0 ls = RtoC 1 /\ tf_in 0 ls = RtoC 2 /\ tf_bh 0 ls = RtoC 1) /\
  forall eps, 0 < eps -> exists delta, 0 < delta /\ forall omega, Rabs omega < delta ->
    Rabs (Cmod (tf_ro omega ls) - 1) < eps /\ Rabs (Cmod (tf_in omega ls) - 2) < eps /\ Rabs (Cmod (tf_bh omega ls) - 1) < eps.
Proof.
  intros ls N.
  assert (T2 : RtoC 2 = Cplus (RtoC 1) (RtoC 1)) by (rewrite <- RtoC_plus; f_equal; ring).
  assert (N3 : Cplus (RtoC 1) (RtoC 1) <> RtoC 0) by (rewrite <- T2; apply RtoC_neq; lra).
  assert (N1 : RtoC 1 <> RtoC 0) by (apply RtoC_neq; lra).
  split.
  { destruct (tf_final 0 ls N) as (-> & -> & ->). rewrite final_0. cbn [fst snd one2]. rewrite T2. repeat split; field; auto. }
  intros eps He.
  destruct (final_cont 0 ls (fun _ => one2) (ccont_const _ _) (ccont_const _ _)) as [CA CB].
  assert (H1 : continuous (fun w => Cmod (Cinv (fst (final w ls one2)))) 0) by (apply (ccont_Cmod_inv (fun w => fst (final w ls one2)) 0 (RtoC 1) CA); [rewrite final_0; reflexivity|exact N1]).
  assert (H2 : continuous (fun w => Cmod (Cinv (Cplus (fst (final w ls one2)) (snd (final w ls one2))))) 0).
  { apply (ccont_Cmod_inv (fun w => Cplus (fst (final w ls one2)) (snd (final w ls one2))) 0 (RtoC 2)); [apply ccont_plus; assumption|rewrite final_0, T2; reflexivity|rewrite T2; exact N3]. }
  assert (He2 : 0 < eps / 2) by lra.
  pose proof (proj1 (filterlim_locally _ _) H1 (mkposreal _ He2)) as [d1 D1]. pose proof (proj1 (filterlim_locally _ _) H2 (mkposreal _ He2)) as [d2 D2].
  rewrite final_0 in D1, D2. cbn [fst snd one2] in D1, D2. rewrite <- T2 in D2.
  replace (Cmod (Cinv (RtoC 1))) with 1 in D1 by (rewrite Cmod_inv by exact N1; rewrite Cmod_1; field).
  replace (Cmod (Cinv (RtoC 2))) with (/ 2) in D2 by (rewrite Cmod_inv by (rewrite T2; exact N3); rewrite Cmod_R, Rabs_pos_eq by lra; reflexivity).
  exists (Rmin d1 d2). split; [apply Rmin_pos; apply cond_pos|]. intros omega Hw.
  assert (B1 : ball 0 d1 omega) by (unfold ball; cbn; unfold AbsRing_ball, abs, minus, plus, opp; cbn; rewrite Ropp_0, Rplus_0_r; pose proof (Rmin_l d1 d2); lra).
  assert (B2 : ball 0 d2 omega) by (unfold ball; cbn; unfold AbsRing_ball, abs, minus, plus, opp; cbn; rewrite Ropp_0, Rplus_0_r; pose proof (Rmin_r d1 d2); lra).
  specialize (D1 omega B1). specialize (D2 omega B2). unfold ball in D1, D2. cbn in D1, D2. unfold AbsRing_ball, abs, minus, plus, opp in D1, D2. cbn in D1, D2.
  destruct (tf_final omega ls N) as (-> & -> & ->). unfold Cdiv. rewrite !Cmod_mult, Cmod_1, Cmod_R, (Rabs_pos_eq 2) by lra.
  apply Rabs_def2 in D1. apply Rabs_def2 in D2. repeat split; apply Rabs_def1; lra.
Qed.

(** ** The routine *)
Definition lay5 (r : list R) : lay := mklay (cell 0 r) (cell 1 r) (cell 2 r) (cell 3 r).
Definition lay2 (r : list R) : lay := mklay (cell 0 r) (cell 1 r) (1 / (2 * Qs_formula_3 (cell 1 r))) (rho_rule (cell 1 r)).
Lemma map_seq_eq {A B} (f : A -> B) (d : A) : forall l s (g : nat -> B),
  (forall i, (i < length l)%nat -> g (s + i)%nat = f (nth i l d)) -> map g (seq s (length l)) = map f l.
Proof.
  induction l as [|a l IH]; intros s g H; [reflexivity|]. cbn [length seq map]. f_equal.
  - specialize (H O). rewrite Nat.add_0_r in H. apply H. cbn. lia.
  - apply IH. intros i Hi. specialize (H (S i)). replace (s + S i)%nat with (S s + i)%nat in H by lia. apply H. cbn. lia.
Qed.
Lemma lays_of_eq t : lays_of t = map (if Nat.eqb (t_ncol t) 2 then lay2 else lay5) (t_rows t).
Proof.
  unfold lays_of. destruct (Nat.eqb (t_ncol t) 2); [|reflexivity]. cbv zeta.
  apply (map_seq_eq lay2 []). intros i Hi. cbn [plus]. unfold lay2. f_equal.
  - unfold get_xi_rho, col. cbn [fst]. rewrite map_map.
    set (F := fun x : list R => 1 / (2 * Qs_formula_3 (cell 1 x))). transitivity (nth i (map F (t_rows t)) (F [])); [apply nth_indep; rewrite map_length; exact Hi|].
    apply (map_nth F).
  - unfold get_xi_rho, col. cbn [snd]. rewrite map_map.
    set (F := fun x : list R => rho_rule (cell 1 x)). transitivity (nth i (map F (t_rows t)) (F [])); [apply nth_indep; rewrite map_length; exact Hi|].
    apply (map_nth F).
Qed.
Lemma lays_of_column t : valid_table t -> column (lays_of t).
Proof.
  intros (five & Ec & init & lst & Er & Fi & Gl). rewrite lays_of_eq, Er, map_app, Ec.
  assert (G : forall last r, good_row five last r ->
    let l := (if Nat.eqb (if five then 5 else 2) 2 then lay2 else lay5) r in phys l /\ 0 < l_xi l /\ (if last then 0 <= l_h l else 0 < l_h l)).
  { intros last r (thk & vs & tl & -> & Ht & Hv & H5). destruct five; cbn [Nat.eqb].
    - destruct H5 as (xi & rho & m & -> & X & Rh & _). unfold lay5, phys, cell. cbn [nth l_h l_vs l_xi l_rho]. destruct last; repeat split; lra.
    - subst tl. unfold lay2, phys, cell. cbn [nth l_h l_vs l_xi l_rho]. pose proof (xi3_eq vs Hv) as Q.
      assert (X : 0 < 1 / (2 * Qs_formula_3 vs)) by (apply Rdiv_lt_0_compat; lra).
      assert (Rh : 0 < rho_rule vs) by (unfold rho_rule; destruct Rltb; [lra|destruct Rltb; lra]).
      destruct last; repeat split; lra. }
  eexists _, _. split; [reflexivity|]. split.
  - rewrite Forall_map. eapply Forall_impl; [|exact Fi]. intros r H. apply (G false r H).
  - destruct (G true lst Gl) as (P & X & _). split; assumption.
Qed.

Lemma find_f0_ok (x : signal) : (2 <= length x)%nat -> exists f, find_f0 x = Ok f.
Proof.
  intros H. unfold find_f0. destruct (Nat.ltb_spec (length x) 2) as [L|_]; [lia|].
  assert (B : forall a prev i, a <> [] -> (f0_scan a prev i <= i + (length a - 1) - 1)%nat \/ (f0_scan a prev i < i + length a - 1)%nat).
  { induction a as [|y a IH]; intros prev i N; [congruence|]. cbn [f0_scan]. destruct a as [|z a]; [left; cbn [length]; lia|].
    destruct (negb (Rltb 0 (z - y)) && prev); [right; cbn [length]; lia|].
    destruct (IH (Rltb 0 (z - y)) (S i) ltac:(discriminate)) as [Q|Q]; cbn [length] in *; [left|right]; lia. }
  assert (L : length (vals x) = length x) by (unfold vals; apply map_length). assert (L' : length (times x) = length x) by (unfold times; apply map_length).
  assert (NV : vals x <> []) by (intros Q; rewrite Q in L; cbn in L; lia).
  assert (I : (f0_scan (vals x) true 0 < length x)%nat) by (destruct (B (vals x) true O NV); lia).
  unfold get. destruct (nth_error (times x) _) eqn:E; [eauto|]. exfalso. apply nth_error_None in E.
  destruct (Nat.eqb_spec (f0_scan (vals x) true 0) (length x - 2)); lia.
Qed.

(** The routine accepts exactly the valid profiles with at least two frequencies. *)
Theorem C23_accepts_iff : forall t res_f fmax, table_wf t -> 0 < res_f ->
  ((exists r, linear_tf t res_f fmax = Ok r) <-> valid_table t /\ 2 * res_f <= fmax).
Proof.
  intros t res_f fmax Wf Hr. unfold linear_tf.
  assert (FL : forall z, (z <= Int_part (fmax / res_f))%Z <-> IZR z * res_f <= fmax).
  { intros z. destruct (base_Int_part (fmax / res_f)) as [B1 B2].
    assert (Q : fmax / res_f * res_f = fmax) by (field; lra). split; intros H.
    - apply IZR_le in H. nra.
    - assert (IZR z < IZR (Int_part (fmax / res_f) + 1)) by (rewrite plus_IZR; nra). apply lt_IZR in H0. lia. }
  split.
  - intros (r & E). destruct (check_Vs_profile_format (as_pyobj t)) as [[]|] eqn:EC; [|discriminate]. split; [apply (check_table t Wf), EC|].
    destruct (Z.ltb_spec (Int_part (fmax / res_f)) 0) as [L|L]; [discriminate|]. cbv zeta in E.
    apply bind_ok in E as (f1 & E1 & _). unfold find_f0 in E1. rewrite combine_length, !map_length in E1.
    set (n := Z.to_nat (Int_part (fmax / res_f))) in *.
    assert (LN : length (linspace res_f (res_f * IZR (Int_part (fmax / res_f))) n) = n) by apply P_interp.linspace_length.
    rewrite LN, Nat.min_id in E1. destruct (Nat.ltb_spec n 2) as [L2|L2]; [discriminate|]. apply FL. lia.
  - intros [V L]. rewrite (check_table_complete t V). apply FL in L. destruct (Z.ltb_spec (Int_part (fmax / res_f)) 0) as [N|_]; [lia|]. cbv zeta.
    set (n := Z.to_nat (Int_part (fmax / res_f))). set (fr := linspace _ _ n). assert (LN : length fr = n) by apply P_interp.linspace_length.
    assert (OK : forall g : R -> C, exists f, find_f0 (combine fr (map Cmod (map g fr))) = Ok f).
    { intros g. apply find_f0_ok. rewrite combine_length, !map_length, LN, Nat.min_id. lia. }
    destruct (OK (fun f => tf_ro (2 * PI * f) (lays_of t))) as (f1 & E1). destruct (OK (fun f => tf_in (2 * PI * f) (lays_of t))) as (f2 & E2). destruct (OK (fun f => tf_bh (2 * PI * f) (lays_of t))) as (f3 & E3).
    rewrite E1. cbn [bind]. rewrite E2. cbn [bind]. rewrite E3. cbn [bind]. eauto.
Qed.

(** The failures: the validator's own, a negative maximum frequency, and fewer than
    two frequencies. *)
Theorem C23_errors : forall t res_f fmax, 0 < res_f ->
  (forall e, check_Vs_profile_format (as_pyobj t) = Err e -> linear_tf t res_f fmax = Err e) /\
  (valid_table t -> fmax < 0 -> linear_tf t res_f fmax = Err ValueError) /\
  (valid_table t -> 0 <= fmax < 2 * res_f -> linear_tf t res_f fmax = Err UnboundLocalError).
Proof.
  intros t res_f fmax Hr. unfold linear_tf. destruct (base_Int_part (fmax / res_f)) as [B1 B2].
  assert (Q : fmax / res_f * res_f = fmax) by (field; lra). split; [|split].
  - intros e E. rewrite E. reflexivity.
  - intros V L. rewrite (check_table_complete t V). destruct (Z.ltb_spec (Int_part (fmax / res_f)) 0) as [N|N]; [reflexivity|]. apply IZR_le in N. nra.
  - intros V [L1 L2]. rewrite (check_table_complete t V).
    assert (N1 : (-1 < Int_part (fmax / res_f))%Z) by (apply lt_IZR; nra). assert (N2 : (Int_part (fmax / res_f) < 2)%Z) by (apply lt_IZR; nra).
    destruct (Z.ltb_spec (Int_part (fmax / res_f)) 0) as [N|N]; [lia|]. cbv zeta. unfold find_f0 at 1. rewrite combine_length, !map_length, P_interp.linspace_length, Nat.min_id.
    destruct (Nat.ltb_spec (Z.to_nat (Int_part (fmax / res_f))) 2) as [_|K]; [reflexivity|lia].
Qed.

(** What is returned: the frequency grid, the three functions of [C23_solves_wave_equation]
    at those frequencies, their moduli, and the fundamental frequencies of the moduli. *)
Theorem C23_result : forall t res_f fmax r, table_wf t -> 0 < res_f -> linear_tf t res_f fmax = Ok r ->
  let n := length (lr_freq r) in let ls := lays_of t in let f i := INR (S i) * res_f in let w i := 2 * PI * f i in
  column ls /\ (2 <= n)%nat /\ INR n * res_f <= fmax < INR (S n) * res_f /\
  (forall i, (i < n)%nat -> nth i (lr_freq r) 0 = f i) /\
  (length (lr_TF_ro r) = n /\ length (lr_TF_in r) = n /\ length (lr_TF_bh r) = n) /\
  (forall i, (i < n)%nat -> nth i (lr_TF_ro r) (RtoC 0) = tf_ro (w i) ls /\ nth i (lr_TF_in r) (RtoC 0) = tf_in (w i) ls /\ nth i (lr_TF_bh r) (RtoC 0) = tf_bh (w i) ls) /\
  (lr_AF_ro r = map Cmod (lr_TF_ro r) /\ lr_AF_in r = map Cmod (lr_TF_in r) /\ lr_AF_bh r = map Cmod (lr_TF_bh r)) /\
  lr_AF_in r = map (fun a => 2 * a) (lr_AF_ro r) /\
  find_f0 (combine (lr_freq r) (lr_AF_ro r)) = Ok (lr_f0_ro r) /\ find_f0 (combine (lr_freq r) (lr_AF_bh r)) = Ok (lr_f0_bh r).
Proof.
  intros t res_f fmax r Wf Hr E. destruct (proj1 (C23_accepts_iff t res_f fmax Wf Hr) (ex_intro _ r E)) as [V L].
  unfold linear_tf in E. rewrite (check_table_complete t V) in E. destruct (Z.ltb_spec (Int_part (fmax / res_f)) 0) as [N|N]; [discriminate|]. cbv zeta in E.
  apply bind_ok in E as (f1 & E1 & E). apply bind_ok in E as (f2 & E2 & E). apply bind_ok in E as (f3 & E3 & E). injection E as <-.
  cbn [lr_freq lr_AF_ro lr_TF_ro lr_f0_ro lr_AF_in lr_TF_in lr_AF_bh lr_TF_bh lr_f0_bh].
  destruct (base_Int_part (fmax / res_f)) as [B1 B2]. assert (Q : fmax / res_f * res_f = fmax) by (field; lra).
  set (z := Int_part (fmax / res_f)) in *. set (m := Z.to_nat z) in *.
  assert (LN : length (linspace res_f (res_f * IZR z) m) = m) by apply P_interp.linspace_length. rewrite LN.
  assert (NZ : INR m = IZR z) by (unfold m; rewrite INR_IZR_INZ, Z2Nat.id by lia; reflexivity).
  assert (M2 : (2 <= m)%nat).
  { assert (2 <= z)%Z; [|unfold m; lia]. assert (IZR 1 < IZR z) by nra. apply lt_IZR in H. lia. }
  assert (GR : forall i, (i < m)%nat -> nth i (linspace res_f (res_f * IZR z) m) 0 = INR (S i) * res_f).
  { intros i Hi. rewrite P_interp.linspace_nth' by lia. rewrite <- NZ. rewrite S_INR.
    assert (IM : INR (m - 1) = INR m - 1) by (rewrite minus_INR by lia; cbn; ring). rewrite IM. assert (2 <= INR m) by (apply (le_INR 2); exact M2). field. lra. }
  assert (NT : forall (g : R -> C) i, (i < m)%nat -> nth i (map g (linspace res_f (res_f * IZR z) m)) (RtoC 0) = g (INR (S i) * res_f)).
  { intros g i Hi. rewrite (nth_indep _ (RtoC 0) (g 0)) by (rewrite map_length, LN; exact Hi). rewrite map_nth, GR by exact Hi. reflexivity. }
  split; [apply lays_of_column, V|]. split; [exact M2|]. split; [rewrite S_INR, NZ; nra|]. split; [exact GR|].
  split; [rewrite !map_length; auto|]. split.
  { intros i Hi. rewrite !NT by exact Hi. auto. }
  split; [auto|]. split; [|auto].
  rewrite !map_map. apply map_ext_in. intros f If.
  assert (fp : 0 < 2 * PI * f).
  { apply (In_nth _ _ 0) in If as (i & Hi & <-). rewrite LN in Hi. rewrite GR by exact Hi. pose proof PI_RGT_0. assert (0 < INR (S i)) by (apply lt_0_INR; lia).
    apply Rmult_lt_0_compat; [lra|]. apply Rmult_lt_0_compat; lra. }
  rewrite (proj1 (C23_links (2 * PI * f) (lays_of t) fp (lays_of_column t V))), Cmod_mult, Cmod_R, Rabs_pos_eq by lra. reflexivity.
Qed.

(** A 5 m layer over rock. *)
Example C23_instance : let t := mktable false 2 [[5; 300]; [0; 800]] in
  valid_table t /\ column (lays_of t) /\ (exists r, linear_tf t (5 / 100) 30 = Ok r /\ nth 3 (lr_freq r) 0 = 2 / 10) /\
  linear_tf t 1 1 = Err UnboundLocalError /\ tf_ro 0 (lays_of t) = RtoC 1.
Proof.
  intros t.
  assert (V : valid_table t).
  { exists false. split; [reflexivity|]. exists [[5; 300]], [0; 800]. split; [reflexivity|]. split.
    - constructor; [|constructor]. exists 5, 300, []. repeat split; lra.
    - exists 0, 800, []. repeat split; lra. }
  assert (Wf : table_wf t) by (repeat constructor).
  split; [exact V|]. split; [apply lays_of_column, V|]. split; [|split].
  - assert (R0 : 0 < 5 / 100) by lra. assert (R1 : 2 * (5 / 100) <= 30) by lra.
    destruct (proj2 (C23_accepts_iff t (5 / 100) 30 Wf R0) (conj V R1)) as (r & E). exists r. split; [exact E|].
    destruct (C23_result t (5 / 100) 30 r Wf R0 E) as (_ & _ & [_ U] & GR & _).
    assert (K : (3 < length (lr_freq r))%nat).
    { apply INR_lt. replace (INR 3) with 3 by (cbn; ring). rewrite S_INR in U. nra. }
    rewrite (GR 3%nat K). cbn. lra.
  - apply (C23_errors t 1 1 ltac:(lra)); [exact V|lra].
  - apply (C23_static_limit (lays_of t)). discriminate.
Qed.
