(** C122: the curve objects constructed from the soil parameters of several layers. *)
From Coq Require Import Reals List Bool ZArith String Lia Lra.
From Verif Require Import Base M_generic P_generic Prop_generic M_interp P_interp M_soil P_soil Prop_soil M_params P_params Prop_params M_fits Prop_dfits M_curvemat P_curvemat Prop_curvemat M_figures M_lawcurves Prop_lawcurves.
Import ListNotations.
Open Scope string_scope.
Open Scope list_scope.
Open Scope R_scope.

(** ** Specification *)
(** Ratios and dampings of the layers, in order, at the given strains. *)
Definition layer_values (m : law) (st : list R) (layers : list dict) (vs : list (list R * list R)) : Prop :=
  Forall2 (fun d v => numeric (get_GGmax m d st) (fst v) /\ numeric (get_damping m d st) (snd v) /\
                      List.length (fst v) = List.length st /\ List.length (snd v) = List.length st) layers vs.
(** The curves: strain in percent against value. *)
Definition ratio_curves (st : list R) (vs : list (list R * list R)) : list (list (R * R)) := map (fun v => combine st (fst v)) vs.
Definition damping_curves (st : list R) (vs : list (list R * list R)) : list (list (R * R)) := map (fun v => combine st (snd v)) vs.
(** What a curve object may hold (see C97). *)
Definition within (top : R) (c : list (R * R)) : Prop := Forall (fun p => 0 <= fst p /\ 0 <= snd p <= top) c.

(** ** Lemmas *)
Definition blk (st : list R) (v : list R * list R) : list (list num) := layer_block st (map Fin (fst v)) (map Fin (snd v)).
Definition quad (x g d : R) : list num := [Fin x; Fin g; Fin x; Fin d].
Lemma blk_length st v : List.length (fst v) = List.length st -> List.length (snd v) = List.length st -> List.length (blk st v) = List.length st.
Proof. intros A B. unfold blk, layer_block. rewrite map_length, !combine_length, !map_length. lia. Qed.
Lemma blk_nth st v i : List.length (fst v) = List.length st -> List.length (snd v) = List.length st -> (i < List.length st)%nat ->
  nth i (blk st v) [] = quad (nth i st 0) (nth i (fst v) 0) (nth i (snd v) 0).
Proof.
  destruct v as [g d]. cbn [fst snd]. unfold blk, layer_block. cbn [fst snd]. revert g d i. induction st as [|x st IH]; intros [|a g] [|b d] i A B Hi; try discriminate; [cbn in Hi; lia|].
  destruct i as [|i]; [reflexivity|]. cbn [map combine nth]. apply IH; cbn in *; lia.
Qed.

Lemma loop_some m st layers vs : layer_values m st layers vs -> forall acc,
  curves_loop m st (Some acc) layers = Ok (Some (fold_left hstack (map (blk st) vs) acc)).
Proof.
  intros H. induction H as [|d v layers vs (E1 & E2 & _) H IH]; intros acc; [reflexivity|]. cbn [curves_loop]. rewrite E1, E2. cbn [bind map fold_left]. apply IH.
Qed.
Lemma loop_none m st d layers v vs : layer_values m st (d :: layers) (v :: vs) ->
  curves_loop m st None (d :: layers) = Ok (Some (fold_left hstack (map (blk st) vs) (blk st v))).
Proof.
  intros H. inversion H as [|? ? ? ? (E1 & E2 & _) H']; subst. cbn [curves_loop]. rewrite E1, E2. cbn [bind]. apply loop_some. exact H'.
Qed.

Definition sized (st : list R) (v : list R * list R) : Prop := List.length (fst v) = List.length st /\ List.length (snd v) = List.length st.
Lemma values_sized m st layers vs : layer_values m st layers vs -> Forall (sized st) vs.
Proof. intros H. induction H as [|d v layers vs (_ & _ & A) H IH]; constructor; assumption. Qed.

Lemma fold_rows st vs : Forall (sized st) vs -> forall acc, List.length acc = List.length st ->
  List.length (fold_left hstack (map (blk st) vs) acc) = List.length st /\
  forall i, (i < List.length st)%nat -> nth i (fold_left hstack (map (blk st) vs) acc) [] =
    nth i acc [] ++ List.concat (map (fun v => quad (nth i st 0) (nth i (fst v) 0) (nth i (snd v) 0)) vs).
Proof.
  intros H. induction H as [|v vs [A B] H IH]; intros acc LA; cbn [map fold_left List.concat].
  - split; [exact LA|]. intros. rewrite app_nil_r. reflexivity.
  - assert (L : List.length (hstack acc (blk st v)) = List.length st) by (rewrite hstack_length; [exact LA|rewrite (blk_length st v A B); exact LA]).
    destruct (IH _ L) as [L' N]. split; [exact L'|]. intros i Hi. rewrite N by exact Hi.
    rewrite hstack_nth by (rewrite ?(blk_length st v A B), LA; auto). rewrite (blk_nth st v i A B Hi). rewrite <- app_assoc. reflexivity.
Qed.

Lemma matrix_rows st v vs : Forall (sized st) (v :: vs) ->
  let rows := fold_left hstack (map (blk st) vs) (blk st v) in
  List.length rows = List.length st /\
  forall i, (i < List.length st)%nat -> nth i rows [] = List.concat (map (fun v => quad (nth i st 0) (nth i (fst v) 0) (nth i (snd v) 0)) (v :: vs)).
Proof.
  intros H rows. pose proof (Forall_inv H) as [A B]. destruct (fold_rows st vs (Forall_inv_tail H) (blk st v) (blk_length st v A B)) as [L N].
  split; [exact L|]. intros i Hi. unfold rows. rewrite N by exact Hi. rewrite (blk_nth st v i A B Hi). reflexivity.
Qed.

Lemma nth_pairs st (y : list R) i : List.length y = List.length st -> (i < List.length st)%nat -> nth i (combine st y) (0, 0) = (nth i st 0, nth i y 0).
Proof. intros L _. rewrite combine_nth by auto. reflexivity. Qed.

Lemma extracted st v vs : Forall (sized st) (v :: vs) ->
  let rows := fold_left hstack (map (blk st) vs) (blk st v) in
  extract_from_curve_format (PArr true (A2 (4 * List.length (v :: vs)) rows)) false =
    Ok (map pairs (ratio_curves st (v :: vs)), map pairs (damping_curves st (v :: vs))).
Proof.
  intros H rows. destruct (matrix_rows st v vs H) as [L N]. fold rows in L, N. set (ws := v :: vs) in *.
  assert (RL : forall i, (i < List.length st)%nat -> List.length (nth i rows []) = (4 * List.length ws)%nat).
  { intros i Hi. rewrite N by exact Hi. apply concat4_length. intros. reflexivity. }
  rewrite extract_ok.
  - f_equal. f_equal.
    + apply (nth_ext _ _ [] []); [unfold ratio_curves; rewrite !map_length, seq_length; reflexivity|]. intros k Hk. rewrite map_length, seq_length in Hk.
      rewrite (nth_indep _ [] ((fun k => cols (4 * k) (4 * k + 2) rows) 0%nat)) by (rewrite map_length, seq_length; exact Hk). rewrite (map_nth (fun k => cols (4 * k) (4 * k + 2) rows)), seq_nth by exact Hk.
      unfold ratio_curves. rewrite map_map. rewrite (nth_indep _ [] ((fun x : list R * list R => pairs (combine st (fst x))) ([], []))) by (rewrite map_length; exact Hk). rewrite (map_nth (fun x : list R * list R => pairs (combine st (fst x)))).
      set (w := nth k ws ([], [])). assert (SW : sized st w) by (apply (proj1 (Forall_forall _ _) H), nth_In, Hk). destruct SW as [A B].
      apply cols_pairs; [rewrite combine_length; lia|]. intros i Hi. rewrite combine_length in Hi. assert (Hi' : (i < List.length st)%nat) by lia.
      rewrite (RL i Hi'). rewrite nth_pairs by auto. cbn [fst snd]. split; [cbn [Nat.add]; lia|]. rewrite N by exact Hi'. cbn [Nat.add].
      replace (4 * k)%nat with (4 * k + 0)%nat at 1 by lia.
      rewrite !(concat4_nth (fun v : list R * list R => quad (nth i st 0) (nth i (fst v) 0) (nth i (snd v) 0)) NaN ([], [])) by (first [intros; reflexivity | exact Hk | lia]). split; reflexivity.
    + apply (nth_ext _ _ [] []); [unfold damping_curves; rewrite !map_length, seq_length; reflexivity|]. intros k Hk. rewrite map_length, seq_length in Hk.
      rewrite (nth_indep _ [] ((fun k => cols (4 * k + 2) (4 * k + 4) rows) 0%nat)) by (rewrite map_length, seq_length; exact Hk). rewrite (map_nth (fun k => cols (4 * k + 2) (4 * k + 4) rows)), seq_nth by exact Hk.
      unfold damping_curves. rewrite map_map. rewrite (nth_indep _ [] ((fun x : list R * list R => pairs (combine st (snd x))) ([], []))) by (rewrite map_length; exact Hk). rewrite (map_nth (fun x : list R * list R => pairs (combine st (snd x)))).
      set (w := nth k ws ([], [])). assert (SW : sized st w) by (apply (proj1 (Forall_forall _ _) H), nth_In, Hk). destruct SW as [A B]. cbn [Nat.add].
      replace (4 * k + 4)%nat with (4 * k + 2 + 2)%nat by lia.
      apply cols_pairs; [rewrite combine_length; lia|]. intros i Hi. rewrite combine_length in Hi. assert (Hi' : (i < List.length st)%nat) by lia.
      rewrite (RL i Hi'). rewrite nth_pairs by auto. cbn [fst snd]. split; [lia|]. rewrite N by exact Hi'.
      replace (4 * k + 2 + 1)%nat with (4 * k + 3)%nat by lia.
      rewrite !(concat4_nth (fun v : list R * list R => quad (nth i st 0) (nth i (fst v) 0) (nth i (snd v) 0)) NaN ([], [])) by (first [intros; reflexivity | exact Hk | lia]). split; reflexivity.
  - unfold cells_ok. apply Forall_forall. intros r Hr. apply (In_nth _ _ []) in Hr as (i & Hi & <-). rewrite L in Hi. rewrite N by exact Hi.
    apply Forall_forall. intros c Hc. apply in_concat in Hc as (q & Hq & Hc). apply in_map_iff in Hq as (w & <- & _). cbn in Hc. destruct Hc as [<-|[<-|[<-|[<-|[]]]]]; eexists; reflexivity.
Qed.

Lemma curve_of_dec k c : (within (largest k) c -> curve_of k (PArr true (A2 2 (pairs c))) = Ok c) /\
  (~ within (largest k) c -> curve_of k (PArr true (A2 2 (pairs c))) = Err ValueError).
Proof.
  split; [apply curve_of_pairs|]. intros H. unfold curve_of.
  destruct (check_two_column_format (PArr true (A2 2 (pairs c))) true false) as [[]|e] eqn:E.
  - cbn [bind]. unfold pairs in E. apply check_pairs in E. rewrite to_curve_pairs, upper_is. destruct (existsb _ c) eqn:X; [reflexivity|]. exfalso. apply H. apply existsb_false in X.
    unfold within. rewrite Forall_forall in *. intros p Hp. specialize (E p Hp). specialize (X p Hp). cbv beta in X. apply Rltb_false in X. lra.
  - cbn [bind]. f_equal. unfold check_two_column_format in E. cbn [negb andb Nat.eqb] in E. unfold check_numbers_valid in E.
    repeat (match type of E with context [if ?b then _ else _] => destruct b end; cbn [bind] in E; try discriminate E; try (injection E as <-; reflexivity)).
Qed.
Lemma objects_dec k cs : (Forall (within (largest k)) cs -> map_res (fun c => curve_of k (PArr true (A2 2 (pairs c)))) cs = Ok cs) /\
  (~ Forall (within (largest k)) cs -> map_res (fun c => curve_of k (PArr true (A2 2 (pairs c)))) cs = Err ValueError).
Proof.
  split.
  - intros H. induction H as [|c cs Hc H IH]; [reflexivity|]. cbn [map_res]. rewrite (proj1 (curve_of_dec k c) Hc). cbn [bind]. rewrite IH. reflexivity.
  - intros H. destruct (map_res (fun c => curve_of k (PArr true (A2 2 (pairs c)))) cs) as [l|e] eqn:E.
    + exfalso. apply H. apply map_res_Forall2 in E. clear H. induction E as [|c c' cs l Hc E IH]; constructor; [|exact IH].
      apply curve_of_ok_iff in Hc as [Hp Ha]; [|unfold pairs; apply Forall_map, Forall_forall; intros; reflexivity].
      apply (f_equal to_curve) in Hp. rewrite !to_curve_pairs in Hp. subst. exact Ha.
    + f_equal. apply (map_res_err _ (fun e => e = ValueError) cs e) in E; [exact E|]. intros c e' E'.
      destruct (Forall_dec (fun p : R * R => 0 <= fst p /\ 0 <= snd p <= largest k)) with (l := c) as [D|D].
      * intros p. destruct (Rle_dec 0 (fst p)), (Rle_dec 0 (snd p)), (Rle_dec (snd p) (largest k)); (left; tauto) || (right; tauto).
      * rewrite (proj1 (curve_of_dec k c) D) in E'. discriminate.
      * rewrite (proj2 (curve_of_dec k c) D) in E'. injection E' as <-. reflexivity.
Qed.
Lemma map_res_map {A B C} (f : A -> B) (g : B -> res C) l : map_res g (map f l) = map_res (fun x => g (f x)) l.
Proof. induction l as [|x l IH]; [reflexivity|]. cbn [map map_res]. rewrite IH. reflexivity. Qed.

Lemma F2_length {A B} (P : A -> B -> Prop) l l' : Forall2 P l l' -> List.length l = List.length l'.
Proof. intros H. induction H; cbn [List.length]; congruence. Qed.

(** What the function does with the matrix. *)
Lemma construct_only m st layers vs k : layers <> [] -> layer_values m st layers vs ->
  construct_curves m layers st (Only k) =
    let! cs := map_res (fun c => curve_of k (PArr true (A2 2 (pairs c)))) (pick k (ratio_curves st vs, damping_curves st vs)) in
    Ok (match k with KG => (Some cs, None) | KD => (None, Some cs) end).
Proof.
  intros Hne H. destruct H as [|d v layers vs Hd H]; [congruence|]. assert (HV : layer_values m st (d :: layers) (v :: vs)) by (constructor; assumption).
  unfold construct_curves. rewrite (loop_none m st d layers v vs HV). cbn [bind as_obj].
  assert (LE : List.length (d :: layers) = List.length (v :: vs)) by (apply (F2_length _ _ _ HV)). rewrite LE.
  rewrite (extracted st v vs (values_sized _ _ _ _ HV)). cbn [bind]. unfold curves_init.
  assert (EP : pick k (map pairs (ratio_curves st (v :: vs)), map pairs (damping_curves st (v :: vs))) = map pairs (pick k (ratio_curves st (v :: vs), damping_curves st (v :: vs)))) by (destruct k; reflexivity).
  rewrite EP, !map_res_map. reflexivity.
Qed.
Lemma construct_both m st layers vs : layers <> [] -> layer_values m st layers vs ->
  construct_curves m layers st Both =
    let! gs := map_res (fun c => curve_of KG (PArr true (A2 2 (pairs c)))) (ratio_curves st vs) in
    let! ds := map_res (fun c => curve_of KD (PArr true (A2 2 (pairs c)))) (damping_curves st vs) in
    Ok (Some gs, Some ds).
Proof.
  intros Hne H. destruct H as [|d v layers vs Hd H]; [congruence|]. assert (HV : layer_values m st (d :: layers) (v :: vs)) by (constructor; assumption).
  unfold construct_curves. rewrite (loop_none m st d layers v vs HV). cbn [bind as_obj].
  assert (LE : List.length (d :: layers) = List.length (v :: vs)) by (apply (F2_length _ _ _ HV)). rewrite LE.
  unfold both_init. cbn [bind]. unfold assert_2D_numpy_array. cbn [bind].
  replace ((4 * List.length (v :: vs)) mod 4)%nat with 0%nat by (rewrite Nat.mul_comm, Nat.mod_mul; lia). cbn [Nat.eqb negb bind]. unfold both_objects.
  rewrite (extracted st v vs (values_sized _ _ _ _ HV)). cbn [bind fst snd]. rewrite !map_res_map.
  destruct (map_res (fun c => curve_of KG (PArr true (A2 2 (pairs c)))) (ratio_curves st (v :: vs))) as [gs|]; [|reflexivity]. cbn [bind].
  destruct (map_res (fun c => curve_of KD (PArr true (A2 2 (pairs c)))) (damping_curves st (v :: vs))); reflexivity.
Qed.

(** ** The objects *)
(** With both kinds asked for: one curve of each kind per layer, in order, exactly when every ratio is
    between 0 and 1 and every damping between 0 and 100 percent (and no strain negative); otherwise ValueError. *)
Theorem C122_both : forall m layers st vs, layers <> [] -> layer_values m st layers vs ->
  (Forall (within 1) (ratio_curves st vs) /\ Forall (within 100) (damping_curves st vs) ->
     construct_curves m layers st Both = Ok (Some (ratio_curves st vs), Some (damping_curves st vs))) /\
  (~ (Forall (within 1) (ratio_curves st vs) /\ Forall (within 100) (damping_curves st vs)) ->
     construct_curves m layers st Both = Err ValueError).
Proof.
  intros m layers st vs Hne H. rewrite (construct_both m st layers vs Hne H). split.
  - intros [A B]. rewrite (proj1 (objects_dec KG _) A). cbn [bind]. rewrite (proj1 (objects_dec KD _) B). reflexivity.
  - intros N. destruct (map_res (fun c => curve_of KG (PArr true (A2 2 (pairs c)))) (ratio_curves st vs)) as [gs|e] eqn:E.
    + cbn [bind]. destruct (map_res (fun c => curve_of KD (PArr true (A2 2 (pairs c)))) (damping_curves st vs)) as [ds|e] eqn:E'.
      * exfalso. apply N. split; [|].
        -- destruct (Forall_dec (within 1)) with (l := ratio_curves st vs) as [D|D]; [|exact D|].
           ++ intros c. apply Forall_dec. intros p. destruct (Rle_dec 0 (fst p)), (Rle_dec 0 (snd p)), (Rle_dec (snd p) 1); (left; tauto) || (right; tauto).
           ++ rewrite (proj2 (objects_dec KG _) D) in E. discriminate.
        -- destruct (Forall_dec (within 100)) with (l := damping_curves st vs) as [D|D]; [|exact D|].
           ++ intros c. apply Forall_dec. intros p. destruct (Rle_dec 0 (fst p)), (Rle_dec 0 (snd p)), (Rle_dec (snd p) 100); (left; tauto) || (right; tauto).
           ++ rewrite (proj2 (objects_dec KD _) D) in E'. discriminate.
      * cbn [bind]. destruct (Forall_dec (within 100)) with (l := damping_curves st vs) as [D|D].
        -- intros c. apply Forall_dec. intros p. destruct (Rle_dec 0 (fst p)), (Rle_dec 0 (snd p)), (Rle_dec (snd p) 100); (left; tauto) || (right; tauto).
        -- rewrite (proj1 (objects_dec KD _) D) in E'. discriminate.
        -- rewrite (proj2 (objects_dec KD _) D) in E'. injection E' as <-. reflexivity.
    + cbn [bind]. destruct (Forall_dec (within 1)) with (l := ratio_curves st vs) as [D|D].
      * intros c. apply Forall_dec. intros p. destruct (Rle_dec 0 (fst p)), (Rle_dec 0 (snd p)), (Rle_dec (snd p) 1); (left; tauto) || (right; tauto).
      * rewrite (proj1 (objects_dec KG _) D) in E. discriminate.
      * rewrite (proj2 (objects_dec KG _) D) in E. injection E as <-. reflexivity.
Qed.

(** With one kind asked for, the other is None and its values do not matter. *)
Theorem C122_one_kind : forall m layers st vs, layers <> [] -> layer_values m st layers vs ->
  (Forall (within 1) (ratio_curves st vs) -> construct_curves m layers st (Only KG) = Ok (Some (ratio_curves st vs), None)) /\
  (~ Forall (within 1) (ratio_curves st vs) -> construct_curves m layers st (Only KG) = Err ValueError) /\
  (Forall (within 100) (damping_curves st vs) -> construct_curves m layers st (Only KD) = Ok (None, Some (damping_curves st vs))) /\
  (~ Forall (within 100) (damping_curves st vs) -> construct_curves m layers st (Only KD) = Err ValueError).
Proof.
  intros m layers st vs Hne H. rewrite !(construct_only m st layers vs _ Hne H). cbn [pick fst snd].
  split; [intros A; rewrite (proj1 (objects_dec KG _) A); reflexivity|]. split; [intros A; rewrite (proj2 (objects_dec KG _) A); reflexivity|].
  split; [intros A; rewrite (proj1 (objects_dec KD _) A); reflexivity|]. intros A; rewrite (proj2 (objects_dec KD _) A); reflexivity.
Qed.

(** No layers: an error whose kind depends on what was asked for. *)
Theorem C122_no_layers : forall m st, construct_curves m [] st Both = Err ValueError /\ forall k, construct_curves m [] st (Only k) = Err TypeError.
Proof. intros m st. split; [reflexivity|]. intros []; reflexivity. Qed.

(** A layer whose curves cannot be computed stops the construction with its error, before any object is made. *)
Theorem C122_first_error : forall m before d after st w vs e, layer_values m st before vs ->
  get_GGmax m d st = Err e \/ (exists g, get_GGmax m d st = Ok g) /\ get_damping m d st = Err e ->
  construct_curves m (before ++ d :: after) st w = Err e.
Proof.
  intros m before d after st w vs e H He.
  assert (L : forall acc, curves_loop m st acc (before ++ d :: after) = Err e).
  { induction H as [|b v before vs (E1 & E2 & _) H IH]; intros acc; cbn [app curves_loop].
    - destruct He as [->|[[g ->] ->]]; reflexivity.
    - rewrite E1, E2. cbn [bind]. apply IH. }
  unfold construct_curves. rewrite L. reflexivity.
Qed.

(** ** MKZ layers *)
Definition MKZ_good (d : dict) : Prop := exists gr s b G, MKZ_set d gr s b G /\ 0 < gr /\ 0 < s <= 1 /\ 0 <= b /\ 0 < G.
Lemma forall_combine st (P : R -> Prop) (y : list R) top : Forall (fun x => 0 < x) st -> Forall (fun v => 0 <= v <= top) y -> within top (combine st y).
Proof.
  intros A B. apply Forall_forall. intros [a b] Hp. split; [apply in_combine_l in Hp; pose proof (proj1 (Forall_forall _ _) A a Hp) as X; cbn in *; lra|].
  apply in_combine_r in Hp. apply (proj1 (Forall_forall _ _) B b Hp).
Qed.
(** Layers with an exponent of at most 1, strains that increase: the construction always succeeds. *)
Theorem C122_MKZ_succeeds : forall layers st, layers <> [] -> Forall MKZ_good layers -> st <> [] -> increasing0 st ->
  exists vs, layer_values LMKZ st layers vs /\
    construct_curves LMKZ layers st Both = Ok (Some (ratio_curves st vs), Some (damping_curves st vs)) /\
    construct_curves LMKZ layers st (Only KG) = Ok (Some (ratio_curves st vs), None) /\
    construct_curves LMKZ layers st (Only KD) = Ok (None, Some (damping_curves st vs)).
Proof.
  intros layers st Hne HF Hst HI. destruct (increasing_strains st HI Hst) as [_ HP].
  assert (X : exists vs, layer_values LMKZ st layers vs /\ Forall (within 1) (ratio_curves st vs) /\ Forall (within 100) (damping_curves st vs)).
  { clear Hne. induction HF as [|d layers (gr & s & b & G & HD & Hgr & Hs & Hb & HG) HF IH]; [exists []; split; [constructor|split; constructor]|].
    destruct IH as (vs & A & B & C). destruct (C121_MKZ_range d gr s b G st HD Hgr Hs Hb HG Hst HI) as (gg & xi & EG & EX & LG & LX & RG & _ & RX & _).
    exists ((gg, xi) :: vs). split; [constructor; [auto|exact A]|]. split; constructor; try assumption.
    - apply forall_combine; [exact (fun _ => True)|exact HP|]. eapply Forall_impl; [|exact RG]. cbn. intros; lra.
    - apply forall_combine; [exact (fun _ => True)|exact HP|]. eapply Forall_impl; [|exact RX]. cbn. intros v [V1 V2]. split; [exact V1|]. eapply Rle_trans; [exact V2|].
      pose proof PI_RGT_0. pose proof PI2_3_2 as P. unfold PI2 in P. apply Rmult_le_reg_r with PI; [lra|]. unfold Rdiv. rewrite Rmult_assoc, Rinv_l by lra. lra. }
  destruct X as (vs & A & B & C). exists vs. split; [exact A|]. split; [apply (proj1 (C122_both LMKZ layers st vs Hne A)); auto|].
  destruct (C122_one_kind LMKZ layers st vs Hne A) as (P1 & _ & P2 & _). auto.
Qed.

Definition mkz_dict (gr s b G : R) : dict := [("gamma_ref", gr); ("s", s); ("beta", b); ("Gmax", G)].
Lemma mkz_dict_set gr s b G : MKZ_set (mkz_dict gr s b G) gr s b G.
Proof. split; [intros k; reflexivity|]. intros k v HI. cbn in HI. destruct HI as [X|[X|[X|[X|[]]]]]; injection X as <- <-; reflexivity. Qed.

(** An exponent above 1, which the parameter class accepts, can give dampings above 100 percent, and then no
    curves; the ratios alone can still be had. *)
Theorem C122_MKZ_beyond_one_refuted : exists d st, MKZ_set d 1 3 1 1 /\ increasing0 st /\ st <> [] /\
  construct_curves LMKZ [d] st Both = Err ValueError /\ construct_curves LMKZ [d] st (Only KD) = Err ValueError /\
  exists gs, construct_curves LMKZ [d] st (Only KG) = Ok (Some gs, None).
Proof.
  set (d := mkz_dict 1 3 1 1). set (st := [100; 300]). pose proof (mkz_dict_set 1 3 1 1) as HD. fold d in HD. exists d, st. split; [exact HD|].
  assert (HI : increasing0 st). { intros k Hk. destruct k as [|[|k]]; cbn in *; [lra|lra|lia]. }
  split; [exact HI|]. split; [discriminate|]. pose proof (increasing_strains st HI ltac:(discriminate)) as HS.
  destruct (C121_MKZ d 1 3 1 1 st HD) as (_ & EG & EX); try lra; [exact HS|].
  set (gg := map (fun x => / (1 + 1 * Rpower (x / 1) 3)) (hundredth st)) in *. set (ts := map (mkz_stress 1 3 1 1) (hundredth st)) in *. set (xi := map (fun x => x * 100) (masing_curve (hundredth st) ts)) in *.
  assert (HV : layer_values LMKZ st [d] [(gg, xi)]) by (constructor; [|constructor]; auto).
  assert (P3 : forall x, 0 < x -> Rpower x 3 = x * x * x) by (intros x Hx; replace 3 with (INR 3) by (cbn; lra); rewrite Rpower_pow by exact Hx; cbn; lra).
  assert (NX : ~ Forall (within 100) (damping_curves st [(gg, xi)])).
  { intros F. apply Forall_inv in F. unfold within in F. rewrite Forall_forall in F. specialize (F (300, Rmax (masing (hundredth st) ts 1) 0 * 100) (or_intror (or_introl eq_refl))). cbn [fst snd] in F.
    assert (1 < masing (hundredth st) ts 1); [|pose proof (Rmax_l (masing (hundredth st) ts 1) 0); lra].
    unfold masing, ts, st. cbn [hundredth map combine area_to nth]. unfold mkz_stress. rewrite !P3 by lra.
    match goal with |- 1 < 2 / PI * ?e => replace e with (13 / 3) by field end. pose proof PI_RGT_0. pose proof PI_4. unfold Rdiv.
    apply Rmult_lt_reg_r with PI; [lra|]. replace (2 * / PI * (13 * / 3) * PI) with (2 * (13 * / 3) * (PI * / PI)) by ring. rewrite Rinv_r by lra. lra. }
  destruct (C122_one_kind LMKZ [d] st [(gg, xi)] ltac:(discriminate) HV) as (A & _ & _ & D).
  split; [apply (proj2 (C122_both LMKZ [d] st [(gg, xi)] ltac:(discriminate) HV)); tauto|]. split; [apply D, NX|]. eexists. apply A.
  constructor; [|constructor]. apply forall_combine; [exact (fun _ => True)|apply HS|]. unfold gg, st. cbn [hundredth map]. rewrite !P3 by lra. constructor; [lra|constructor; [lra|constructor]].
Qed.

Definition hh_dict (gt a gr b s G mu T d : R) : dict :=
  [("gamma_t", gt); ("a", a); ("gamma_ref", gr); ("beta", b); ("s", s); ("Gmax", G); ("mu", mu); ("Tmax", T); ("d", d)].
(** HH parameters, all of them positive, can give ratios above 1, and then no curves, although the figure and the arrays can be had. *)
Theorem C122_HH_positive_refuted : exists gt a gr b s G mu T dd x v, 0 < gt /\ 0 < a /\ 0 < gr /\ 0 < b /\ 0 < s <= 1 /\ 0 < G /\ 0 < mu /\ 0 < T /\ 0 < dd /\ 0 < x /\
  numeric (get_GGmax LHH (hh_dict gt a gr b s G mu T dd) [x]) [v] /\ 1 < v /\
  construct_curves LHH [hh_dict gt a gr b s G mu T dd] [x] Both = Err ValueError.
Proof.
  destruct (C44_transition_limits 1 1 Rlt_0_1 Rlt_0_1) as (lo & hi & Hlh & _ & Hh). set (g := hi + 1). assert (Hg : 0 < g) by (unfold g; lra).
  exists 1, 1, 1, 1, 1, 1, 2, (4 * g), 1, (g * 100), (4 / 3). do 10 (split; [lra|]).
  set (d := hh_dict 1 1 1 1 1 1 2 (4 * g) 1).
  assert (HD : HH_set d 1 1 1 1 1 1 2 (4 * g) 1).
  { split; [intros k; reflexivity|]. intros k v HI. cbn in HI. do 9 (destruct HI as [X|HI]; [injection X as <- <-; reflexivity|]). destruct HI. }
  assert (HS : strains [g * 100]) by (split; [discriminate|]; constructor; [lra|constructor]).
  destruct (C121_HH d 1 1 1 1 1 1 2 (4 * g) 1 [g * 100] HD) as (_ & EG & EX); try lra; [exact HS|].
  assert (EV : map (fun x => hh_stress 1 1 1 1 1 1 2 (4 * g) 1 x / x / 1) (hundredth [g * 100]) = [4 / 3]).
  { cbn [hundredth map]. replace (g * 100 / 100) with g by field. f_equal. unfold hh_stress. rewrite Hh by (rewrite Rabs_pos_eq; unfold g; lra).
    unfold fkz_stress. rewrite !Rpower_1 by exact Hg. field. lra. }
  rewrite EV in EG. split; [exact EG|]. split; [lra|].
  set (xi := map (fun x => x * 100) _) in EX.
  assert (HV : layer_values LHH [g * 100] [d] [([4 / 3], xi)]) by (constructor; [|constructor]; repeat split; auto).
  apply (proj2 (C122_both LHH [d] _ _ ltac:(discriminate) HV)). intros [F _]. apply Forall_inv, Forall_inv in F. cbn in F. lra.
Qed.

(** ** Instance *)
Example C122_instance : exists vs, layer_values LMKZ [1 / 100; 1] [mkz_dict (1 / 1000) (9 / 10) 1 60000000; mkz_dict (1 / 500) 1 2 1000] vs /\
  construct_curves LMKZ [mkz_dict (1 / 1000) (9 / 10) 1 60000000; mkz_dict (1 / 500) 1 2 1000] [1 / 100; 1] Both = Ok (Some (ratio_curves [1 / 100; 1] vs), Some (damping_curves [1 / 100; 1] vs)) /\
  List.length (ratio_curves [1 / 100; 1] vs) = 2%nat.
Proof.
  destruct (C122_MKZ_succeeds [mkz_dict (1 / 1000) (9 / 10) 1 60000000; mkz_dict (1 / 500) 1 2 1000] [1 / 100; 1]) as (vs & A & B & _); try discriminate.
  - constructor; [|constructor; [|constructor]]; do 4 eexists; (split; [apply mkz_dict_set|lra]).
  - intros k Hk. destruct k as [|[|k]]; cbn in *; [lra|lra|lia].
  - exists vs. split; [exact A|]. split; [exact B|]. unfold ratio_curves. rewrite map_length. symmetry. apply (F2_length _ _ _ A).
Qed.
