(** Specifications and proofs for helper_generic.py. *)
From Coq Require Import Reals List Bool ZArith Lia Lra.
From Verif Require Import Base M_generic.
Import ListNotations.
Open Scope R_scope.

(** ** Reflection lemmas for the boolean tests *)
Definition fin_nonneg (x : num) : Prop := exists r, x = Fin r /\ 0 <= r.
Definition fin_pos (x : num) : Prop := exists r, x = Fin r /\ 0 < r.
Definition fin (x : num) : Prop := exists r, x = Fin r.
(** A cell holding a mathematical integer. *)
Definition int_valued (x : num) : Prop := exists z : Z, x = Fin (IZR z).

Lemma nfinite_true x : nfinite x = true <-> fin x.
Proof.
  destruct x; cbn; split; intros H; try discriminate; try (destruct H; discriminate); auto.
  eexists; eauto.
Qed.

Lemma all_finite l : forallb nfinite l = true <-> Forall fin l.
Proof.
  rewrite forallb_forall, Forall_forall. split; intros H x Hx; apply nfinite_true; auto.
Qed.

Lemma existsb_false {A} (f : A -> bool) l :
  existsb f l = false <-> Forall (fun x => f x = false) l.
Proof.
  induction l as [|a l IH]; cbn; split; intros H; auto.
  - apply orb_false_iff in H as [H1 H2]. constructor; tauto.
  - inversion H; subst. apply orb_false_iff; tauto.
Qed.

Lemma nltb0_false x : fin x -> nltb x (Fin 0) = false <-> fin_nonneg x.
Proof.
  intros [r ->]; cbn. rewrite Rltb_false. split.
  - intros; eexists; eauto.
  - intros (r' & E & H); congruence.
Qed.

Lemma nleb0_false x : fin x -> nleb x (Fin 0) = false <-> fin_pos x.
Proof.
  intros [r ->]; cbn. rewrite Rleb_false. split.
  - intros; eexists; eauto.
  - intros (r' & E & H); congruence.
Qed.

Lemma is_int_true x : is_int x = true <-> int_valued x.
Proof.
  destruct x; cbn; split; intros H; try discriminate; try (destruct H; discriminate).
  - destruct Req_EM_T as [E|]; [|discriminate]. exists (Int_part r). congruence.
  - destruct H as [z E]. injection E as ->.
    destruct Req_EM_T as [|N]; [reflexivity|]. exfalso; apply N.
    f_equal. unfold Int_part.
    assert (H : (up (IZR z) = z + 1)%Z).
    { symmetry. apply tech_up; rewrite plus_IZR; lra. }
    rewrite H. lia.
Qed.

(** ** check_numbers_valid *)
(** The flag a reader of the docstring expects, as a relation. *)
Inductive flag_spec (numeric : bool) (l : list num) : Z -> Prop :=
| flag_non_number : numeric = false -> flag_spec numeric l (-1)
| flag_non_finite : numeric = true -> (exists x, In x l /\ ~ fin x) -> flag_spec numeric l (-2)
| flag_negative : numeric = true -> Forall fin l -> (exists r, In (Fin r) l /\ r < 0) ->
    flag_spec numeric l (-3)
| flag_valid : numeric = true -> Forall fin_nonneg l -> flag_spec numeric l 0.

Lemma Forall_fin_nonneg_fin l : Forall fin_nonneg l -> Forall fin l.
Proof. intros H; eapply Forall_impl; [|exact H]. intros x (r & -> & _); eexists; eauto. Qed.

Lemma fin_dec x : {fin x} + {~ fin x}.
Proof. destruct x; [left; eexists; eauto|right; intros [r E]; discriminate..]. Qed.

Lemma not_all_finite l : forallb nfinite l = false <-> exists x, In x l /\ ~ fin x.
Proof.
  split; intros H.
  - induction l as [|a l IH]; cbn in H; [discriminate|].
    destruct (fin_dec a) as [Ha|Ha].
    + apply nfinite_true in Ha. rewrite Ha in H. destruct (IH H) as (x & ? & ?).
      exists x; cbn; auto.
    + exists a; cbn; auto.
  - destruct H as (x & Hin & Hn). destruct (forallb nfinite l) eqn:E; [|reflexivity].
    rewrite forallb_forall in E. exfalso; apply Hn, nfinite_true; auto.
Qed.

Lemma check_numbers_valid_flag numeric a :
  exists z, check_numbers_valid (PArr numeric a) = Ok z /\ flag_spec numeric (cells a) z.
Proof.
  cbn. destruct numeric; cbn.
  2:{ eexists; split; [reflexivity|]. constructor; reflexivity. }
  destruct (forallb nfinite (cells a)) eqn:E1; cbn.
  2:{ eexists; split; [reflexivity|]. constructor 2; auto. apply not_all_finite; auto. }
  apply all_finite in E1.
  destruct (existsb (fun x => nltb x (Fin 0)) (cells a)) eqn:E2; cbn.
  - eexists; split; [reflexivity|]. constructor 3; auto.
    apply existsb_exists in E2 as (x & Hin & Hlt).
    rewrite Forall_forall in E1. destruct (E1 x Hin) as [r ->].
    cbn in Hlt. apply Rltb_true in Hlt. eauto.
  - eexists; split; [reflexivity|]. constructor 4; auto.
    apply existsb_false in E2. rewrite Forall_forall in *. intros x Hx.
    apply nltb0_false; auto.
Qed.

Lemma flag_spec_functional numeric l z1 z2 :
  flag_spec numeric l z1 -> flag_spec numeric l z2 -> z1 = z2.
Proof.
  intros H1 H2; destruct H1; destruct H2; try congruence; exfalso;
  repeat match goal with
  | H : Forall fin_nonneg _ |- _ => pose proof (Forall_fin_nonneg_fin _ H); revert H
  | H : exists _, _ |- _ => destruct H as (? & ? & ?)
  end; intros;
  repeat match goal with H : Forall _ _ |- _ => rewrite Forall_forall in H end; eauto.
  - match goal with H : forall x, In x l -> fin_nonneg x, H2 : In (Fin _) l |- _ =>
      destruct (H _ H2) as (r & E & Hr); injection E as ->; lra end.
  - match goal with H : forall x, In x l -> fin_nonneg x, H2 : In (Fin _) l |- _ =>
      destruct (H _ H2) as (r & E & Hr); injection E as ->; lra end.
Qed.

Lemma check_numbers_valid_spec numeric a z :
  check_numbers_valid (PArr numeric a) = Ok z <-> flag_spec numeric (cells a) z.
Proof.
  destruct (check_numbers_valid_flag numeric a) as (z' & E & Hf).
  split.
  - intros E'. assert (z = z') by congruence. subst; auto.
  - intros Hf'. rewrite E. f_equal. eapply flag_spec_functional; eauto.
Qed.

(** ** Length normalisation *)
Lemma check_length_or_extend_spec o n l :
  check_length_or_extend_to_array o n = Ok l <->
  (exists x, o = PNum x /\ l = repeat x n) \/
  (exists b, o = PArr b (A1 l) /\ length l = n).
Proof.
  destruct o as [x|b a|]; cbn; split.
  - intros E; injection E as <-. left; eauto.
  - intros [(y & E & ->)|(b & E & _)]; [injection E as ->; reflexivity|discriminate].
  - unfold assert_array_length. destruct a; cbn; try discriminate.
    destruct (Nat.eqb_spec (length l0) n); [|discriminate]. intros E; injection E as ->. eauto.
  - intros [(y & E & _)|(b' & E & Hl)]; [discriminate|]. injection E as -> ->.
    unfold assert_array_length; cbn. rewrite (proj2 (Nat.eqb_eq _ _) Hl). reflexivity.
  - discriminate.
  - intros [(y & E & _)|(b' & E & Hl)]; discriminate.
Qed.

(** ** check_two_column_format *)
Lemma check_two_column_format_spec o nonneg atleast :
  check_two_column_format o nonneg atleast = Ok tt <->
  exists c rows, o = PArr true (A2 c rows) /\
    (if atleast then (2 <= c)%nat else c = 2%nat) /\
    Forall (Forall fin) rows /\
    (nonneg = true -> Forall (Forall fin_nonneg) rows).
Proof.
  split.
  - destruct o as [|b a|]; unfold check_two_column_format; try discriminate.
    destruct a as [| |c rows|]; try discriminate.
    destruct (negb atleast && negb (Nat.eqb c 2)) eqn:E1; [discriminate|].
    destruct (atleast && Nat.ltb c 2) eqn:E2; [discriminate|].
    intros H.
    destruct (check_numbers_valid_flag b (A2 c rows)) as (z & E & Hf).
    rewrite E in H. cbn [bind] in H.
    destruct (Z.eqb_spec z (-1)); [discriminate|].
    destruct (Z.eqb_spec z (-2)); [discriminate|].
    destruct (nonneg && Z.eqb z (-3)) eqn:E3; [discriminate|].
    destruct b; [|inversion Hf; subst; congruence].
    exists c, rows. split; [reflexivity|]. split.
    { destruct atleast; cbn [negb andb] in *.
      - apply Nat.ltb_ge in E2; auto.
      - destruct (Nat.eqb_spec c 2); [auto|discriminate]. }
    inversion Hf; subst; try congruence; cbn [cells] in *.
    + split; [apply Forall_concat; assumption|].
      intros ->. cbn in E3. discriminate.
    + split; [apply Forall_concat, Forall_fin_nonneg_fin; assumption|].
      intros _. apply Forall_concat; assumption.
  - intros (c & rows & -> & Hc & Hf & Hnn).
    unfold check_two_column_format.
    replace (negb atleast && negb (Nat.eqb c 2)) with false.
    2:{ destruct atleast; cbn; auto. subst; reflexivity. }
    replace (atleast && Nat.ltb c 2) with false.
    2:{ destruct atleast; cbn [negb andb]; auto. symmetry; apply Nat.ltb_ge; auto. }
    destruct (check_numbers_valid_flag true (A2 c rows)) as (z & E & Hs).
    rewrite E. cbn [bind].
    assert (HF : Forall fin (concat rows)) by (apply Forall_concat; auto).
    inversion Hs; subst; try discriminate; cbn [cells] in *.
    + destruct H0 as (x & Hin & Hn). rewrite Forall_forall in HF. exfalso; auto.
    + destruct nonneg; [|reflexivity].
      destruct H1 as (r & Hin & Hr). specialize (Hnn eq_refl). apply Forall_concat in Hnn.
      rewrite Forall_forall in Hnn. destruct (Hnn _ Hin) as (r' & E' & Hr').
      injection E' as ->. lra.
    + rewrite andb_false_r. reflexivity.
Qed.

(** ** check_Vs_profile_format *)

(** Specification: the shape and range conditions of the class documentation,
    stated row by row on indices.  The last row is the only one allowed to have
    zero thickness / zero material number. *)
Definition row_ok (five is_last : bool) (r : list num) : Prop :=
  exists thk vs tl, r = Fin thk :: Fin vs :: tl /\
    (if is_last then 0 <= thk else 0 < thk) /\ 0 < vs /\
    (if five then exists xi rho (m : Z), tl = [Fin xi; Fin rho; Fin (IZR m)] /\
        0 < xi /\ 0 < rho /\ (if is_last then (0 <= m)%Z else (0 < m)%Z)
     else tl = []).

Definition valid_Vs_array (o : pyobj) : Prop :=
  exists five init lst,
    o = PArr true (A2 (if five : bool then 5 else 2)%nat (init ++ [lst])) /\
    Forall (row_ok five false) init /\ row_ok five true lst.

Lemma last_res_app {A} (l : list A) x : last_res (l ++ [x]) = Ok x.
Proof. unfold last_res. rewrite rev_app_distr. reflexivity. Qed.

Lemma removelast_app1 {A} (l : list A) x : removelast (l ++ [x]) = l.
Proof. rewrite removelast_app by discriminate. cbn. apply app_nil_r. Qed.

Lemma column_app j l x : column j (l ++ [x]) = column j l ++ [nth j x NaN].
Proof. unfold column. rewrite map_app. reflexivity. Qed.

Lemma snoc_cases {A} (l : list A) : l = [] \/ exists init x, l = init ++ [x].
Proof.
  destruct l as [|a l] using rev_ind; [auto|right; eauto].
Qed.

Lemma Forall_column (P : num -> Prop) j rows :
  Forall P (column j rows) <-> Forall (fun r => P (nth j r NaN)) rows.
Proof. unfold column. apply Forall_map. Qed.

Lemma Forall2_and {A} (P Q : A -> Prop) l :
  Forall P l -> Forall Q l -> Forall (fun x => P x /\ Q x) l.
Proof. rewrite !Forall_forall; auto. Qed.

Lemma check_Vs_profile_format_sound o :
  match o with PArr _ a => arr_wf a | _ => True end ->
  check_Vs_profile_format o = Ok tt -> valid_Vs_array o.
Proof.
  intros Hwf. destruct o as [|b a|]; try discriminate.
  unfold check_Vs_profile_format.
  destruct (check_numbers_valid_flag b a) as (z & E & Hf).
  rewrite E. cbn [bind].
  destruct (Z.eqb_spec z (-1)); [discriminate|].
  destruct (Z.eqb_spec z (-2)); [discriminate|].
  destruct a as [| |c rows|]; try discriminate.
  assert (b = true /\ Forall fin (concat rows)) as [-> HF].
  { inversion Hf; subst; try congruence; cbn [cells] in *; auto using Forall_fin_nonneg_fin. }
  clear E Hf n n0 z.
  apply Forall_concat in HF. cbn in Hwf.
  destruct (Nat.eqb c 2 || Nat.eqb c 5) eqn:Ec; [|discriminate].
  cbn [negb].
  destruct (existsb (fun x => nleb x (Fin 0)) (removelast (column 0 rows))) eqn:E1; [discriminate|].
  destruct (snoc_cases rows) as [->|(init & lst & ->)]; [discriminate|].
  rewrite !column_app, !last_res_app in *. rewrite removelast_app1 in *.
  cbn [bind].
  destruct (nltb (nth 0 lst NaN) (Fin 0)) eqn:E2; [discriminate|].
  destruct (existsb (fun x => nleb x (Fin 0)) (column 1 init ++ [nth 1 lst NaN])) eqn:E3; [discriminate|].
  apply Forall_app in HF as [HFi HFl]. inversion HFl; subst; clear HFl.
  apply Forall_app in Hwf as [Hwi Hwl]. inversion Hwl; subst; clear Hwl.
  apply existsb_false in E1, E3. apply Forall_app in E3 as [E3 E3l].
  inversion E3l; subst; clear E3l.
  rewrite Forall_column in E1, E3.
  intros HR.
  assert (exists five : bool, length lst = (if five then 5 else 2)%nat) as [five Hfive].
  { destruct (Nat.eqb_spec (length lst) 2); [exists false; auto|].
    destruct (Nat.eqb_spec (length lst) 5); [exists true; auto|discriminate]. }
  rewrite Hfive in *.
  exists five, init, lst. split; [reflexivity|].
  destruct five; cbn [Nat.eqb] in HR.
  - (* five columns *)
    rewrite ?column_app, ?removelast_app1, ?last_res_app in HR.
    cbn [bind] in HR.
    destruct (existsb (fun x => nleb x (Fin 0)) (column 2 init ++ [nth 2 lst NaN])
              || existsb (fun x => nleb x (Fin 0)) (column 3 init ++ [nth 3 lst NaN])) eqn:E4;
      [discriminate|].
    apply orb_false_iff in E4 as [E4 E5].
    destruct (forallb is_int (column 4 init ++ [nth 4 lst NaN])) eqn:E6; [|discriminate].
    cbn [negb] in HR.
    destruct (existsb (fun x => nleb x (Fin 0)) (column 4 init)) eqn:E7; [discriminate|].
    destruct (nltb (nth 4 lst NaN) (Fin 0)) eqn:E8; [discriminate|].
    apply existsb_false in E4, E5, E7.
    apply Forall_app in E4 as [E4 E4l], E5 as [E5 E5l].
    inversion E4l; subst; clear E4l. inversion E5l; subst; clear E5l.
    rewrite forallb_app in E6. apply andb_true_iff in E6 as [E6 E6l].
    rewrite forallb_forall, <- Forall_forall in E6.
    cbn [forallb] in E6l. rewrite andb_true_r in E6l.
    rewrite Forall_column in E4, E5, E7, E6.
    split.
    + rewrite Forall_forall in *. intros r Hr.
      specialize (HFi r Hr). specialize (Hwi r Hr).
      specialize (E1 r Hr). specialize (E3 r Hr). specialize (E4 r Hr). specialize (E5 r Hr).
      specialize (E6 r Hr). specialize (E7 r Hr).
      do 6 (destruct r as [|? r]; try discriminate).
      cbn [nth] in *.
      repeat match goal with H : Forall fin (_ :: _) |- _ => inversion H; subst; clear H end.
      apply nleb0_false in E1, E3, E4, E5, E7; auto.
      apply is_int_true in E6 as [m ->].
      destruct E1 as (? & -> & ?), E3 as (? & -> & ?), E4 as (? & -> & ?), E5 as (? & -> & ?).
      destruct E7 as (q & Eq & Hq). injection Eq as <-.
      do 3 eexists. split; [reflexivity|]. split; [assumption|]. split; [assumption|].
      do 3 eexists. split; [reflexivity|]. repeat split; auto. apply lt_IZR; auto.
    + do 6 (destruct lst as [|? lst]; try discriminate).
      cbn [nth] in *.
      repeat match goal with H : Forall fin (_ :: _) |- _ => inversion H; subst; clear H end.
      repeat match goal with H : nleb _ _ = false |- _ => apply nleb0_false in H; [|assumption] end.
      repeat match goal with H : nltb _ _ = false |- _ => apply nltb0_false in H; [|assumption] end.
      apply is_int_true in E6l as [m ->].
      repeat match goal with
      | H : fin_pos (Fin _) |- _ => destruct H as (? & EE & ?); injection EE as <-
      | H : fin_nonneg (Fin _) |- _ => destruct H as (? & EE & ?); injection EE as <-
      | H : fin_pos _ |- _ => destruct H as (? & -> & ?)
      | H : fin_nonneg _ |- _ => destruct H as (? & -> & ?) end.
      do 3 eexists. split; [reflexivity|]. split; [assumption|]. split; [assumption|].
      do 3 eexists. split; [reflexivity|]. repeat split; auto. apply le_IZR; auto.
  - split.
    + rewrite Forall_forall in *. intros r Hr.
      specialize (HFi r Hr). specialize (Hwi r Hr). specialize (E1 r Hr). specialize (E3 r Hr).
      do 3 (destruct r as [|? r]; try discriminate).
      cbn [nth] in *.
      repeat match goal with H : Forall fin (_ :: _) |- _ => inversion H; subst; clear H end.
      apply nleb0_false in E1, E3; auto.
      destruct E1 as (? & -> & ?), E3 as (? & -> & ?).
      do 3 eexists. split; [reflexivity|]. auto.
    + do 3 (destruct lst as [|? lst]; try discriminate).
      cbn [nth] in *.
      repeat match goal with H : Forall fin (_ :: _) |- _ => inversion H; subst; clear H end.
      repeat match goal with H : nleb _ _ = false |- _ => apply nleb0_false in H; [|assumption] end.
      repeat match goal with H : nltb _ _ = false |- _ => apply nltb0_false in H; [|assumption] end.
      repeat match goal with
      | H : fin_pos _ |- _ => destruct H as (? & -> & ?)
      | H : fin_nonneg _ |- _ => destruct H as (? & -> & ?) end.
      do 3 eexists. split; [reflexivity|]. auto.
Qed.

Lemma row_ok_fin five b r : row_ok five b r -> Forall fin r.
Proof.
  intros (thk & vs & tl & -> & _ & _ & H).
  constructor; [eexists; eauto|]. constructor; [eexists; eauto|].
  destruct five.
  - destruct H as (xi & rho & m & -> & _). repeat (constructor; [eexists; eauto|]). constructor.
  - subst; constructor.
Qed.

Lemma check_Vs_profile_format_complete o :
  valid_Vs_array o -> check_Vs_profile_format o = Ok tt.
Proof.
  intros (five & init & lst & -> & Hi & Hl).
  unfold check_Vs_profile_format.
  set (c := if five then 5%nat else 2%nat).
  destruct (check_numbers_valid_flag true (A2 c (init ++ [lst]))) as (z & E & Hf).
  rewrite E. cbn [bind].
  assert (HF : Forall fin (concat (init ++ [lst]))).
  { apply Forall_concat. apply Forall_app; split.
    - eapply Forall_impl; [|exact Hi]. intros; eapply row_ok_fin; eauto.
    - repeat constructor. eapply row_ok_fin; eauto. }
  assert (Hz : z <> (-1)%Z /\ z <> (-2)%Z).
  { inversion Hf; subst; split; try discriminate; try congruence.
    destruct H0 as (x & Hin & Hn). rewrite Forall_forall in HF. exfalso; apply Hn, HF. exact Hin. }
  destruct Hz as [Hz1 Hz2].
  rewrite (proj2 (Z.eqb_neq _ _) Hz1), (proj2 (Z.eqb_neq _ _) Hz2).
  replace (Nat.eqb c 2 || Nat.eqb c 5) with true by (subst c; destruct five; reflexivity).
  cbn [negb]. rewrite !column_app, !removelast_app1, !last_res_app. cbn [bind].
  assert (P0 : existsb (fun x => nleb x (Fin 0)) (column 0 init) = false).
  { apply existsb_false, Forall_column. eapply Forall_impl; [|exact Hi].
    intros r (? & ? & ? & -> & ? & _). cbn. apply Rleb_false; lra. }
  rewrite P0.
  assert (Hl' := Hl). destruct Hl' as (t & v & tl & -> & Ht & Hv & Htl). cbn [nth].
  replace (nltb (Fin t) (Fin 0)) with false by (cbn; symmetry; apply Rltb_false; lra).
  replace (existsb (fun x => nleb x (Fin 0)) (column 1 init ++ [Fin v])) with false.
  2:{ symmetry. apply existsb_false, Forall_app; split.
      - apply Forall_column. eapply Forall_impl; [|exact Hi].
        intros r (? & ? & ? & -> & _ & ? & _). cbn. apply Rleb_false; lra.
      - repeat constructor. cbn. apply Rleb_false; lra. }
  destruct five; [|reflexivity]. subst c. cbn [Nat.eqb].
  destruct Htl as (xi & rho & m & -> & Hxi & Hrho & Hm). cbn [nth].
  assert (P2 : existsb (fun x => nleb x (Fin 0)) (column 2 init ++ [Fin xi]) = false).
  { apply existsb_false, Forall_app; split.
    - apply Forall_column. eapply Forall_impl; [|exact Hi].
      intros r (? & ? & ? & -> & _ & _ & (? & ? & ? & -> & ? & _)). cbn. apply Rleb_false; lra.
    - repeat constructor. cbn. apply Rleb_false; lra. }
  assert (P3 : existsb (fun x => nleb x (Fin 0)) (column 3 init ++ [Fin rho]) = false).
  { apply existsb_false, Forall_app; split.
    - apply Forall_column. eapply Forall_impl; [|exact Hi].
      intros r (? & ? & ? & -> & _ & _ & (? & ? & ? & -> & _ & ? & _)). cbn. apply Rleb_false; lra.
    - repeat constructor. cbn. apply Rleb_false; lra. }
  rewrite P2, P3. cbn [orb].
  replace (forallb is_int (column 4 init ++ [Fin (IZR m)])) with true.
  2:{ symmetry. apply forallb_forall. intros x Hx. apply is_int_true.
      apply in_app_or in Hx as [Hx|[<-|[]]]; [|eexists; reflexivity].
      unfold column in Hx. apply in_map_iff in Hx as (r & <- & Hr).
      rewrite Forall_forall in Hi.
      destruct (Hi r Hr) as (? & ? & ? & -> & _ & _ & (? & ? & m' & -> & _)).
      cbn. eexists; reflexivity. }
  cbn [negb].
  replace (existsb (fun x => nleb x (Fin 0)) (column 4 init)) with false.
  2:{ symmetry. apply existsb_false, Forall_column. eapply Forall_impl; [|exact Hi].
      intros r (? & ? & ? & -> & _ & _ & (? & ? & m' & -> & _ & _ & Hm')). cbn.
      apply Rleb_false. apply IZR_lt in Hm'. exact Hm'. }
  replace (nltb (Fin (IZR m)) (Fin 0)) with false; [reflexivity|].
  cbn. symmetry. apply Rltb_false. apply IZR_le in Hm. exact Hm.
Qed.

(** ** find_closest_index *)
Lemma argmin_from_spec l : forall best ibest i,
  (ibest < i)%nat ->
  let r := argmin_from best ibest i l in
  (r = ibest /\ Forall (fun x => best <= x) l) \/
  (exists k x, nth_error l k = Some x /\ r = (i + k)%nat /\ x < best /\
     Forall (fun y => x <= y) l /\
     (forall j y, (j < k)%nat -> nth_error l j = Some y -> x < y)).
Proof.
  induction l as [|x l IH]; intros best ibest i Hi r; subst r; cbn.
  - left; auto.
  - destruct (Rltb_spec x best) as [H|H].
    + right. destruct (IH x i (S i)) as [[E HF]|(k & x' & Hk & E & Hlt & HF & Hmin)]; [lia| |].
      * exists 0%nat, x. rewrite E. split; [reflexivity|]. split; [lia|]. split; [auto|].
        split; [constructor; [lra|auto]|]. intros; lia.
      * exists (S k), x'. rewrite E. split; [auto|]. split; [lia|]. split; [lra|].
        split; [constructor; [lra|auto]|].
        intros [|j] y Hj Hy; cbn in Hy; [injection Hy as <-; lra|]. eapply Hmin; eauto; lia.
    + destruct (IH best ibest (S i)) as [[E HF]|(k & x' & Hk & E & Hlt & HF & Hmin)]; [lia| |].
      * left. split; [auto|]. constructor; [lra|auto].
      * right. exists (S k), x'. rewrite E. split; [auto|]. split; [lia|]. split; [lra|].
        split; [constructor; [lra|auto]|].
        intros [|j] y Hj Hy; cbn in Hy; [injection Hy as <-; lra|]. eapply Hmin; eauto; lia.
Qed.

Lemma argmin_spec l : l <> [] ->
  exists x, nth_error l (argmin l) = Some x /\ Forall (fun y => x <= y) l /\
    (forall j y, (j < argmin l)%nat -> nth_error l j = Some y -> x < y).
Proof.
  destruct l as [|a l]; [congruence|intros _]. cbn [argmin].
  destruct (argmin_from_spec l a 0 1) as [[E HF]|(k & x & Hk & E & Hlt & HF & Hmin)]; [lia| |].
  - rewrite E. exists a. split; [reflexivity|]. split; [constructor; [lra|auto]|]. intros; lia.
  - rewrite E. exists x. split; [exact Hk|]. split; [constructor; [lra|auto]|].
    intros [|j] y Hj Hy; cbn in Hy; [injection Hy as <-; lra|]. eapply Hmin; eauto. lia.
Qed.

Lemma find_closest_index_correct array value : array <> [] ->
  exists i x, find_closest_index array value = (Some i, Some x) /\
    nth_error array i = Some x /\
    (forall y, In y array -> Rabs (x - value) <= Rabs (y - value)) /\
    (forall j y, (j < i)%nat -> nth_error array j = Some y -> Rabs (x - value) < Rabs (y - value)).
Proof.
  intros Hne. set (dev := map (fun x => Rabs (x - value)) array).
  destruct (argmin_spec dev) as (d & Hd & HF & Hmin).
  { subst dev. destruct array; [congruence|discriminate]. }
  unfold dev in Hd. rewrite nth_error_map in Hd.
  destruct (nth_error array (argmin dev)) as [x|] eqn:Ex; [|unfold dev in Ex; rewrite Ex in Hd; discriminate].
  unfold dev in Ex. rewrite Ex in Hd. injection Hd as <-.
  exists (argmin dev), x.
  split. { unfold find_closest_index. destruct array; [congruence|]. fold dev. unfold dev. rewrite Ex. reflexivity. }
  split; [exact Ex|]. split.
  - intros y Hy. rewrite Forall_forall in HF. apply HF. unfold dev. apply in_map_iff. eauto.
  - intros j y Hj Hy. apply (Hmin j); auto. unfold dev. rewrite nth_error_map, Hy. reflexivity.
Qed.

(** ** read_two_column_stuff *)
Lemma linspace_length a b n : length (linspace a b n) = n.
Proof. unfold linspace. rewrite map_length, seq_length. reflexivity. Qed.

Lemma linspace_nth a b n i d : (i < n)%nat -> n <> 1%nat ->
  nth i (linspace a b n) d = a + INR i * ((b - a) / INR (n - 1)).
Proof.
  intros Hi Hn. unfold linspace.
  set (f := fun i => _).
  rewrite (nth_indep _ d (f 0%nat)) by (rewrite map_length, seq_length; auto).
  rewrite map_nth, seq_nth by auto. subst f. cbn.
  destruct (Nat.eqb_spec n 1); [congruence|reflexivity].
Qed.

Lemma linspace_multiples d n i dflt : (2 <= n)%nat -> (i < n)%nat ->
  nth i (linspace d (INR n * d) n) dflt = INR (S i) * d.
Proof.
  intros Hn Hi. rewrite linspace_nth by lia.
  rewrite minus_INR by lia. change (INR 1) with 1. rewrite S_INR.
  assert (INR n - 1 <> 0).
  { apply (le_INR 2) in Hn. change (INR 2) with 2 in Hn. lra. }
  field. auto.
Qed.

(** Expected content: sample [i] is labelled [(i+1)*d]. *)
Lemma one_column_spec vals d : d <> 0 -> (2 <= length vals)%nat ->
  one_column (length vals) vals (Some d) =
    Ok (combine (map (fun i => INR (S i) * d) (seq 0 (length vals))) vals, d).
Proof.
  intros Hd Hn. unfold one_column.
  rewrite (get_ok _ 1 0) by (rewrite linspace_length; lia).
  rewrite (get_ok _ 0 0) by (rewrite linspace_length; lia).
  cbn [bind]. rewrite !linspace_multiples by lia.
  rewrite (proj2 (Reqb_false d 0) Hd).
  replace (INR 2 * d - INR 1 * d - d) with 0 by (cbn; ring).
  rewrite Rabs_R0. unfold Rdiv. rewrite Rmult_0_l.
  replace (Rleb 0 (/ 10 ^ 8)) with true
    by (symmetry; apply Rleb_true; left; apply Rinv_0_lt_compat, pow_lt; lra).
  f_equal. f_equal. f_equal.
  apply (list_ext 0).
  - rewrite linspace_length, map_length, seq_length. reflexivity.
  - intros i Hi. rewrite linspace_length in Hi. rewrite linspace_multiples by auto.
    rewrite (nth_indep _ 0 (INR 1 * d)) by (rewrite map_length, seq_length; auto).
    rewrite (map_nth (fun i => INR (S i) * d) _ 0%nat), seq_nth by auto. reflexivity.
Qed.

Lemma one_column_short n vals d : (n < 2)%nat ->
  one_column n vals (Some d) = Err IndexError.
Proof.
  intros Hn. unfold one_column. rewrite get_err by (rewrite linspace_length; lia). reflexivity.
Qed.

(** ** Curve matrices *)
Lemma hstack_nth {A} (d : list A) (m1 m2 : list (list A)) i :
  length m1 = length m2 -> (i < length m1)%nat ->
  nth i (hstack m1 m2) d = nth i m1 d ++ nth i m2 d.
Proof.
  revert m2 i; induction m1 as [|r1 m1 IH]; intros [|r2 m2] i; cbn; intros HL Hi; try lia; try discriminate.
  destruct i; [reflexivity|]. apply IH; lia.
Qed.

Lemma hstack_length {A} (m1 m2 : list (list A)) :
  length m1 = length m2 -> length (hstack m1 m2) = length m1.
Proof.
  revert m2; induction m1 as [|r1 m1 IH]; intros [|r2 m2]; cbn; intros HL; try discriminate; auto.
Qed.

Lemma cols_length {A} a b (m : list (list A)) : length (cols a b m) = length m.
Proof. apply map_length. Qed.

Lemma cols_nth {A} a b (m : list (list A)) i : nth i (cols a b m) [] = slice a b (nth i m []).
Proof.
  unfold cols. replace (@nil A) with (slice a b (@nil A)) at 1.
  - apply map_nth.
  - unfold slice. rewrite skipn_nil, firstn_nil. reflexivity.
Qed.

(** Row-wise description of the merged matrix: group [k] of four columns is the
    G/Gmax pair of [g] followed by the damping pair of [x]. *)
Definition merged_row (n : nat) (g x : list num) : list num :=
  concat (map (fun k => slice (4 * k) (4 * k + 2) g ++ slice (4 * k + 2) (4 * k + 4) x) (seq 0 n)).

Lemma merge_loop_spec G X : length G = length X -> forall n k merged,
  length merged = length G ->
  (forall i, (i < length G)%nat ->
     nth i merged [] = merged_row k (nth i G []) (nth i X [])) ->
  length (merge_loop G X merged k n) = length G /\
  forall i, (i < length G)%nat ->
     nth i (merge_loop G X merged k n) [] = merged_row (k + n) (nth i G []) (nth i X []).
Proof.
  intros HL. induction n as [|n IH]; intros k merged HLm Hm; cbn [merge_loop].
  - rewrite Nat.add_0_r. auto.
  - replace (k + S n)%nat with (S k + n)%nat by lia. apply IH.
    + rewrite !hstack_length; auto; rewrite ?hstack_length, ?cols_length; auto; rewrite ?cols_length; lia.
    + intros i Hi.
      rewrite hstack_nth; [|rewrite hstack_length; rewrite ?cols_length; lia
                           |rewrite hstack_length; rewrite ?cols_length; lia].
      rewrite hstack_nth by (rewrite ?cols_length; lia).
      rewrite !cols_nth, Hm by auto.
      unfold merged_row. rewrite seq_S, map_app, concat_app. cbn [map concat].
      rewrite app_nil_r, <- app_assoc. cbn [Nat.add]. 
      replace (k * 4)%nat with (4 * k)%nat by lia. reflexivity.
Qed.

Lemma merge_spec n bg bx G X : (1 <= n)%nat -> length G = length X ->
  exists M, merge_curve_matrices (PArr bg (A2 (4 * n) G)) (PArr bx (A2 (4 * n) X))
            = Ok ((4 * n)%nat, M) /\ length M = length G /\
    forall i, (i < length G)%nat -> nth i M [] = merged_row n (nth i G []) (nth i X []).
Proof.
  intros Hn HL. unfold merge_curve_matrices. cbn [assert_2D_numpy_array bind].
  replace ((4 * n) mod 4)%nat with 0%nat by (rewrite Nat.mul_comm, Nat.mod_mul; lia).
  rewrite !Nat.eqb_refl. cbn [negb]. rewrite (proj2 (Nat.eqb_eq _ _) HL). cbn [negb].
  replace (4 * n / 4)%nat with n by (rewrite Nat.mul_comm, Nat.div_mul; lia).
  destruct (merge_loop_spec G X HL (n - 1) 1 (hstack (cols 0 2 G) (cols 2 4 X))) as [H1 H2].
  - rewrite hstack_length; rewrite ?cols_length; lia.
  - intros i Hi. rewrite hstack_nth by (rewrite ?cols_length; lia).
    rewrite !cols_nth. unfold merged_row. cbn [seq map concat].
    rewrite app_nil_r. reflexivity.
  - replace (1 + (n - 1))%nat with n in H2 by lia. eauto.
Qed.

Lemma slice_app_l {A} a b (l1 l2 : list A) : (b <= length l1)%nat ->
  slice a b (l1 ++ l2) = slice a b l1.
Proof.
  intros H. unfold slice. rewrite skipn_app, firstn_app.
  replace (b - a - length (skipn a l1))%nat with 0%nat by (rewrite skipn_length; lia).
  cbn. apply app_nil_r.
Qed.

Lemma slice_app_r {A} a b (l1 l2 : list A) : (length l1 <= a)%nat ->
  slice a b (l1 ++ l2) = slice (a - length l1) (b - length l1) l2.
Proof.
  intros H. unfold slice. rewrite skipn_app. rewrite skipn_all2 by auto. cbn [app].
  replace (b - length l1 - (a - length l1))%nat with (b - a)%nat by lia. reflexivity.
Qed.

Lemma slice_all {A} (l : list A) n : length l = n -> slice 0 n l = l.
Proof. intros <-. unfold slice. rewrite Nat.sub_0_r. cbn. apply firstn_all. Qed.

Section rows.
  Variables (g x : list num) (n : nat).
  Hypothesis Hg : length g = (4 * n)%nat.
  Hypothesis Hx : length x = (4 * n)%nat.

  Lemma merged_row_length m : (m <= n)%nat -> length (merged_row m g x) = (4 * m)%nat.
  Proof.
    unfold merged_row. induction m as [|m IH]; intros Hm; [reflexivity|].
    rewrite seq_S, map_app, concat_app, app_length, IH by lia. cbn [map concat].
    rewrite app_nil_r, app_length, !slice_length, Hg, Hx. cbn [Nat.add]. lia.
  Qed.

  Lemma merged_row_S m : merged_row (S m) g x =
    merged_row m g x ++ slice (4 * m) (4 * m + 2) g ++ slice (4 * m + 2) (4 * m + 4) x.
  Proof.
    unfold merged_row. rewrite seq_S, map_app, concat_app. cbn [map concat Nat.add].
    rewrite app_nil_r. reflexivity.
  Qed.

  Lemma merged_row_GG m j : (j < m)%nat -> (m <= n)%nat ->
    slice (4 * j) (4 * j + 2) (merged_row m g x) = slice (4 * j) (4 * j + 2) g.
  Proof.
    induction m as [|m IH]; intros Hj Hm; [lia|]. rewrite merged_row_S.
    assert (HL := merged_row_length m ltac:(lia)).
    destruct (Nat.eq_dec j m) as [->|Hne].
    - rewrite slice_app_r by lia. rewrite HL.
      replace (4 * m - 4 * m)%nat with 0%nat by lia.
      replace (4 * m + 2 - 4 * m)%nat with 2%nat by lia.
      assert (L2 : length (slice (4 * m) (4 * m + 2) g) = 2%nat) by (rewrite slice_length, Hg; lia).
      rewrite slice_app_l by lia. apply slice_all; auto.
    - rewrite slice_app_l by lia. apply IH; lia.
  Qed.

  Lemma merged_row_xi m j : (j < m)%nat -> (m <= n)%nat ->
    slice (4 * j + 2) (4 * j + 4) (merged_row m g x) = slice (4 * j + 2) (4 * j + 4) x.
  Proof.
    induction m as [|m IH]; intros Hj Hm; [lia|]. rewrite merged_row_S.
    assert (HL := merged_row_length m ltac:(lia)).
    destruct (Nat.eq_dec j m) as [->|Hne].
    - rewrite app_assoc. 
      assert (L2 : length (slice (4 * m) (4 * m + 2) g) = 2%nat) by (rewrite slice_length, Hg; lia).
      rewrite slice_app_r by (rewrite app_length, HL; lia). rewrite app_length, HL, L2.
      replace (4 * m + 2 - (4 * m + 2))%nat with 0%nat by lia.
      replace (4 * m + 4 - (4 * m + 2))%nat with 2%nat by lia.
      apply slice_all. rewrite slice_length, Hx; lia.
    - rewrite slice_app_l by lia. apply IH; lia.
  Qed.
End rows.

(** Extraction succeeds exactly when all requested cells are acceptable, and
    then returns the column pairs. *)
Definition cells_ok (nonneg : bool) (rows : list (list num)) : Prop :=
  Forall (Forall (if nonneg then fin_nonneg else fin)) rows.

Lemma Forall_slice {A} (P : A -> Prop) a b l : Forall P l -> Forall P (slice a b l).
Proof.
  intros H. unfold slice. rewrite Forall_forall in *. intros x Hx. apply H.
  assert (In x (skipn a l)).
  { rewrite <- (firstn_skipn (b - a) (skipn a l)). apply in_or_app; auto. }
  rewrite <- (firstn_skipn a l). apply in_or_app; auto.
Qed.

Lemma check_pair_ok nonneg a b rows : cells_ok nonneg rows ->
  check_two_column_format (PArr true (A2 2 (cols a b rows))) nonneg false = Ok tt.
Proof.
  intros H. apply check_two_column_format_spec. exists 2%nat, (cols a b rows).
  split; [reflexivity|]. split; [reflexivity|].
  assert (Hn : Forall (Forall (if nonneg then fin_nonneg else fin)) (cols a b rows)).
  { unfold cols. apply Forall_map. eapply Forall_impl; [|exact H]. intros; apply Forall_slice; auto. }
  split.
  - destruct nonneg; [|exact Hn]. eapply Forall_impl; [|exact Hn]. intros; apply Forall_fin_nonneg_fin; auto.
  - intros ->. exact Hn.
Qed.

Lemma extract_loop_ok nonneg rows : cells_ok nonneg rows -> forall n j,
  extract_loop true nonneg rows j n =
    Ok (map (fun k => cols (4 * k) (4 * k + 2) rows) (seq j n),
        map (fun k => cols (4 * k + 2) (4 * k + 4) rows) (seq j n)).
Proof.
  intros H. induction n as [|n IH]; intros j; [reflexivity|].
  cbn [extract_loop]. rewrite !check_pair_ok by auto. cbn [bind]. rewrite IH. cbn [bind fst snd seq map].
  replace (j * 4 + 0)%nat with (4 * j)%nat by lia. replace (j * 4)%nat with (4 * j)%nat by lia.
  reflexivity.
Qed.

Lemma extract_ok nonneg n rows : cells_ok nonneg rows ->
  extract_from_curve_format (PArr true (A2 (4 * n) rows)) nonneg =
    Ok (map (fun k => cols (4 * k) (4 * k + 2) rows) (seq 0 n),
        map (fun k => cols (4 * k + 2) (4 * k + 4) rows) (seq 0 n)).
Proof.
  intros H. cbn [extract_from_curve_format].
  replace ((4 * n) mod 4)%nat with 0%nat by (rewrite Nat.mul_comm, Nat.mod_mul; lia).
  rewrite Nat.eqb_refl. cbn [negb].
  replace (4 * n / 4)%nat with n by (rewrite Nat.mul_comm, Nat.div_mul; lia).
  apply extract_loop_ok; auto.
Qed.

Lemma cells_ok_nth nonneg rows i : cells_ok nonneg rows ->
  Forall (if nonneg then fin_nonneg else fin) (nth i rows []).
Proof.
  intros H. destruct (nth_in_or_default i rows []) as [Hin | ->]; [|constructor].
  unfold cells_ok in H. rewrite Forall_forall in H. auto.
Qed.

(** Merge then extract. *)
Lemma merge_extract_roundtrip nonneg n G X : (1 <= n)%nat -> length G = length X ->
  Forall (fun r => length r = (4 * n)%nat) G -> Forall (fun r => length r = (4 * n)%nat) X ->
  cells_ok nonneg G -> cells_ok nonneg X ->
  exists M gl dl gl' dl',
    merge_curve_matrices (PArr true (A2 (4 * n) G)) (PArr true (A2 (4 * n) X)) = Ok ((4 * n)%nat, M) /\
    extract_from_curve_format (PArr true (A2 (4 * n) M)) nonneg = Ok (gl, dl) /\
    extract_from_curve_format (PArr true (A2 (4 * n) G)) nonneg = Ok (gl, dl') /\
    extract_from_curve_format (PArr true (A2 (4 * n) X)) nonneg = Ok (gl', dl) /\
    length gl = n /\ length dl = n.
Proof.
  intros Hn HL HG HX HcG HcX.
  destruct (merge_spec n true true G X Hn HL) as (M & EM & LM & HM).
  assert (HcM : cells_ok nonneg M).
  { unfold cells_ok. rewrite Forall_forall. intros r Hr.
    apply (In_nth _ _ []) in Hr as (i & Hi & <-). rewrite LM in Hi. rewrite HM by auto.
    unfold merged_row. apply Forall_concat, Forall_map, Forall_forall. intros k _.
    apply Forall_app; split; apply Forall_slice, cells_ok_nth; auto. }
  assert (LG : forall i, (i < length G)%nat -> length (nth i G []) = (4 * n)%nat).
  { intros i Hi. rewrite Forall_forall in HG. apply HG, nth_In; auto. }
  assert (LX : forall i, (i < length G)%nat -> length (nth i X []) = (4 * n)%nat).
  { intros i Hi. rewrite Forall_forall in HX. apply HX, nth_In; lia. }
  do 5 eexists. split; [exact EM|]. split; [apply extract_ok; auto|].
  rewrite !extract_ok by auto.
  split; [|split; [|split; rewrite map_length, seq_length; reflexivity]].
  - f_equal. f_equal. apply map_ext_in. intros k Hk. apply in_seq in Hk.
    apply (list_ext []); rewrite ?cols_length; [lia|]. intros i Hi. rewrite !cols_nth, HM by lia.
    symmetry; apply (merged_row_GG _ _ n); [apply LG|apply LX|..]; lia.
  - f_equal. f_equal. apply map_ext_in. intros k Hk. apply in_seq in Hk.
    apply (list_ext []); rewrite ?cols_length; [lia|]. intros i Hi. rewrite !cols_nth, HM by lia.
    symmetry; apply (merged_row_xi _ _ n); [apply LG|apply LX|..]; lia.
Qed.

(** Re-stacking the extracted parameter vectors as columns. *)
Definition stack_columns (nrow : nat) (l : list (list num)) : list (list num) :=
  map (fun i => map (fun c => nth i c NaN) l) (seq 0 nrow).

Lemma param_roundtrip b c rows : Forall (fun r => length r = c) rows ->
  exists l, extract_from_param_format (PArr b (A2 c rows)) = Ok l /\ length l = c /\
    Forall (fun v => length v = length rows) l /\ stack_columns (length rows) l = rows.
Proof.
  intros H. eexists. split; [reflexivity|].
  split; [rewrite map_length, seq_length; reflexivity|]. split.
  - apply Forall_map, Forall_forall. intros. unfold column. apply map_length.
  - unfold stack_columns. apply (list_ext []).
    + rewrite map_length, seq_length. reflexivity.
    + rewrite map_length, seq_length. intros i Hi.
      set (f := fun i => map _ _).
      rewrite (nth_indep _ [] (f 0%nat)) by (rewrite map_length, seq_length; auto).
      rewrite map_nth, seq_nth by auto. subst f. cbn beta. rewrite map_map. cbn [Nat.add].
      assert (Hr : length (nth i rows []) = c).
      { rewrite Forall_forall in H. apply H, nth_In; auto. }
      apply (list_ext NaN).
      * rewrite map_length, seq_length; auto.
      * rewrite map_length, seq_length. intros j Hj.
        set (g := fun j => nth i (column j rows) NaN).
        rewrite (nth_indep _ NaN (g 0%nat)) by (rewrite map_length, seq_length; auto).
        rewrite map_nth, seq_nth by auto. subst g. cbn beta. cbn [Nat.add]. unfold column.
        set (h := fun r => nth j r NaN).
        rewrite (nth_indep _ NaN (h [])) by (rewrite map_length; auto).
        rewrite map_nth. reflexivity.
Qed.
