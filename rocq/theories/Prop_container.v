(** Theorems about the multi-layer containers (C39). *)
From Coq Require Import Reals List Bool ZArith Lia.
From Verif Require Import Base M_motion M_container.
Import ListNotations.

Section Spec.
Variable V : Type.
Variable isinst : V -> bool.
Variable conv : V -> res V.
Variable iter : V -> option (list V).
Local Notation cont := (container V).
Local Notation op := (cop V).

(** ** Reference: a plain Python list with a type test.
    [place i n] is the position an integer subscript denotes. *)
Definition place (i : Z) (n : nat) : option nat :=
  let p := if (i <? 0)%Z then (i + Z.of_nat n)%Z else i in
  if ((0 <=? p) && (p <? Z.of_nat n))%Z then Some (Z.to_nat p) else None.

Definition plain (chk : bool) (l : list V) (o : op) : list V :=
  match o with
  | CSet _ (IInt i) v =>
      match place i (length l) with
      | Some p => if chk && negb (isinst v) then l else firstn p l ++ v :: skipn (S p) l
      | None => l
      end
  | CDel _ (IInt i) =>
      match place i (length l) with Some p => firstn p l ++ skipn (S p) l | None => l end
  | CAppend _ v => if chk && isinst v then l ++ [v] else l
  | _ => l
  end.

(** What the operation reports. *)
Definition plain_out (chk : bool) (l : list V) (o : op) : res (out V) :=
  match o with
  | CGet _ (IInt i) =>
      match place i (length l) with
      | Some p => match nth_error l p with Some v => Ok (RItem V v) | None => Err IndexError end
      | None => Err IndexError
      end
  | CGet _ (ISlice a b) =>
      let s := slice (slice_lo a (length l)) (slice_hi b (length l)) l in
      Ok (RCont V {| items := s; n_layer := Z.of_nat (length s); checked := chk |})
  | CSet _ i v =>
      if chk && negb (isinst v) then Err TypeError
      else match i with
           | IInt z => match place z (length l) with Some _ => Ok (RNone V) | None => Err IndexError end
           | _ => Err TypeError
           end
  | CDel _ (IInt i) => match place i (length l) with Some _ => Ok (RNone V) | None => Err IndexError end
  | CAppend _ v => if negb chk then Err AttributeError else if isinst v then Ok (RNone V) else Err TypeError
  | CLen _ => Ok (RLen V (Z.of_nat (length l)))
  | _ => Err TypeError
  end.

(** Operations other than deletion of a slice (and, for parameter containers,
    assignment to a slice). *)
Definition tame (chk : bool) (o : op) : Prop :=
  match o with
  | CDel _ (ISlice _ _) => False
  | CSet _ (ISlice _ _) _ => chk = true
  | _ => True
  end.

Definition sound (chk : bool) (c : cont) : Prop :=
  checked V c = chk /\ n_layer V c = Z.of_nat (length (items V c)) /\
  (chk = true -> Forall (fun v => isinst v = true) (items V c)).

Lemma index_place i n : index_of i n = place i n.
Proof.
  unfold index_of, place.
  destruct (Z.ltb_spec i 0); destruct (Z.leb_spec 0 i); try lia; cbn [andb].
  - destruct (Z.leb_spec (- Z.of_nat n) i); cbn [andb].
    + destruct (Z.leb_spec 0 (i + Z.of_nat n)); [|lia]. destruct (Z.ltb_spec (i + Z.of_nat n) (Z.of_nat n)); [|lia].
      cbn [andb]. f_equal. f_equal. lia.
    + destruct (Z.leb_spec 0 (i + Z.of_nat n)); [lia|]. reflexivity.
  - destruct (Z.ltb_spec i (Z.of_nat n)); [reflexivity|]. rewrite andb_false_r. reflexivity.
Qed.
Lemma place_lt i n p : place i n = Some p -> (p < n)%nat.
Proof.
  unfold place. set (q := if (i <? 0)%Z then _ else _). destruct (Z.leb_spec 0 q), (Z.ltb_spec q (Z.of_nat n)); cbn; try discriminate.
  intros E. injection E as <-. lia.
Qed.

Lemma replace_split k v (l : list V) : (k < length l)%nat -> replace_nth V k v l = firstn k l ++ v :: skipn (S k) l.
Proof.
  revert k. induction l as [|x l IH]; intros [|k] H; cbn in H; try lia; cbn; [reflexivity|].
  rewrite IH by lia. reflexivity.
Qed.
Lemma remove_split k (l : list V) : (k < length l)%nat -> remove_nth V k l = firstn k l ++ skipn (S k) l.
Proof.
  revert k. induction l as [|x l IH]; intros [|k] H; cbn in H; try lia; cbn; [reflexivity|].
  rewrite IH by lia. reflexivity.
Qed.

Lemma Forall_firstn' (P : V -> Prop) k l : Forall P l -> Forall P (firstn k l).
Proof. intros H. rewrite <- (firstn_skipn k l) in H. apply Forall_app in H. tauto. Qed.
Lemma Forall_skipn' (P : V -> Prop) k l : Forall P l -> Forall P (skipn k l).
Proof. intros H. rewrite <- (firstn_skipn k l) in H. apply Forall_app in H. tauto. Qed.

Lemma conv_all l : (forall v, isinst v = true -> conv v = Ok v) -> Forall (fun v => isinst v = true) l -> map_res conv l = Ok l.
Proof. intros H. induction 1 as [|v l Hv HF IH]; cbn; [reflexivity|]. rewrite H by exact Hv. cbn. rewrite IH. reflexivity. Qed.

(** One step. *)
Lemma step_refines chk c o :
  (forall v, isinst v = true -> iter v = None) -> sound chk c -> tame chk o ->
  let c' := fst (cstep V isinst conv iter c o) in
  sound chk c' /\ items V c' = plain chk (items V c) o.
Proof.
  intros Hit (Hchk & Hn & HF) Ht.
  destruct o as [i|i v|i|v|]; cbn [cstep fst plain].
  - split; [split; auto|destruct i; reflexivity].
  - unfold c_set. rewrite Hchk. destruct (chk && negb (isinst v)) eqn:E.
    + cbn [fst]. split; [split; auto|]. destruct i as [z|a b|]; try reflexivity. destruct (place z _); reflexivity.
    + destruct i as [z|a b|].
      * rewrite index_place. destruct (place z (length (items V c))) as [p|] eqn:Ep; [|cbn; split; [split; auto|reflexivity]].
        apply place_lt in Ep. cbn [fst with_items items n_layer checked]. rewrite replace_split by exact Ep.
        split; [|reflexivity]. split; [exact Hchk|]. cbn [with_items fst items n_layer]. split.
        -- rewrite app_length, firstn_length. cbn [length]. rewrite skipn_length. lia.
        -- intros Hc. specialize (HF Hc). rewrite Hc in E. cbn in E. apply negb_false_iff in E.
           apply Forall_app. split; [apply Forall_firstn'; auto|]. constructor; [exact E|apply Forall_skipn'; auto].
      * cbn in Ht. rewrite Ht in E. cbn in E. apply negb_false_iff in E. rewrite Hit by exact E. cbn. split; [split; auto|reflexivity].
      * cbn. split; [split; auto|reflexivity].
  - unfold c_del. destruct i as [z|a b|]; [|destruct Ht|cbn; split; [split; auto|reflexivity]].
    rewrite index_place. destruct (place z (length (items V c))) as [p|] eqn:Ep; [|cbn; split; [split; auto|reflexivity]].
    apply place_lt in Ep. cbn [fst items n_layer checked]. rewrite remove_split by exact Ep. split; [|reflexivity].
    split; [exact Hchk|]. cbn [with_items fst items n_layer]. split.
    + rewrite app_length, firstn_length, skipn_length. lia.
    + intros Hc. specialize (HF Hc). apply Forall_app. split; [apply Forall_firstn'; auto|apply Forall_skipn'; auto].
  - unfold c_append. rewrite Hchk. destruct chk; cbn [negb andb]; [|cbn; split; [split; auto|reflexivity]].
    destruct (isinst v) eqn:E; cbn; [|split; [split; auto|reflexivity]].
    split; [|reflexivity]. split; [first [exact Hchk|reflexivity]|]. cbn [with_items fst items n_layer]. split.
    + rewrite app_length. cbn. lia.
    + intros Hc. apply Forall_app. split; [auto|]. constructor; auto.
  - split; [split; auto|reflexivity].
Qed.

(** ** Over every history (without slice deletion) the container holds exactly what
    a plain list would, with the right length and only instances of the class. *)
Theorem C39_list_refinement : forall chk os c,
  (forall v, isinst v = true -> iter v = None) -> sound chk c -> Forall (tame chk) os ->
  let c' := cruns V isinst conv iter c os in
  sound chk c' /\ items V c' = fold_left (plain chk) os (items V c).
Proof.
  intros chk os. induction os as [|o os IH]; intros c Hit Hs Ho; [split; [exact Hs|reflexivity]|].
  destruct (step_refines chk c o Hit Hs (Forall_inv Ho)) as [H1 H2]. cbn zeta in *.
  specialize (IH (fst (cstep V isinst conv iter c o)) Hit H1 (Forall_inv_tail Ho)). unfold cruns in *. cbn [fold_left]. rewrite <- H2. exact IH.
Qed.

(** Every operation reports what it would on the plain list. *)
Theorem C39_outcomes : forall chk c o,
  (forall v, isinst v = true -> iter v = None) -> (forall v, isinst v = true -> conv v = Ok v) ->
  sound chk c -> Forall (fun v => isinst v = true) (items V c) -> tame chk o ->
  (match o with CDel _ IOther | CGet _ IOther | CSet _ IOther _ => False | _ => True end) ->
  snd (cstep V isinst conv iter c o) = plain_out chk (items V c) o.
Proof.
  intros chk c o Hit Hcv (Hchk & Hn & _) HF Ht Hi. destruct o as [i|i v|i|v|]; cbn [cstep snd plain_out].
  - unfold c_get. destruct i as [z|a b|]; [| |destruct Hi].
    + rewrite index_place. destruct (place z _) eqn:E; [|reflexivity]. unfold get. destruct (nth_error _ _); reflexivity.
    + unfold c_init. rewrite conv_all; [cbn; rewrite Hchk; reflexivity|exact Hcv|].
      unfold slice. apply Forall_firstn', Forall_skipn', HF.
  - unfold c_set. rewrite Hchk. destruct (chk && negb (isinst v)) eqn:E; [reflexivity|]. destruct i as [z|a b|]; [| |destruct Hi].
    + rewrite index_place. destruct (place z _); reflexivity.
    + cbn in Ht. rewrite Ht in E. cbn in E. apply negb_false_iff in E. rewrite Hit by exact E. reflexivity.
  - unfold c_del. destruct i as [z|a b|]; [|destruct Ht|destruct Hi]. rewrite index_place. destruct (place z _); reflexivity.
  - unfold c_append. rewrite Hchk. destruct chk; cbn [negb]; [|reflexivity]. destruct (isinst v); reflexivity.
  - unfold c_len. rewrite Hn. reflexivity.
Qed.

(** The constructor: one element per input element, in order, all instances;
    anything that is neither raw data nor an instance raises. *)
Theorem C39_constructor : forall chk l c,
  (forall v w, conv v = Ok w -> isinst w = true) -> (forall v, isinst v = true -> conv v = Ok v) ->
  c_init V conv chk l = Ok c ->
  sound chk c /\ Forall (fun v => isinst v = true) (items V c) /\ Forall2 (fun v w => conv v = Ok w) l (items V c).
Proof.
  intros chk l c Hc Hid E. unfold c_init in E. apply bind_ok in E as (xs & E & E'). injection E' as <-. cbn [items n_layer checked].
  assert (X : Forall2 (fun v w => conv v = Ok w) l xs).
  { clear -E. revert xs E. induction l as [|v l IH]; cbn; intros xs E; [injection E as <-; constructor|].
    apply bind_ok in E as (w & Ew & E). apply bind_ok in E as (ws & Ews & E). injection E as <-. constructor; auto. }
  assert (Y : Forall (fun v => isinst v = true) xs) by (clear -X Hc; induction X; constructor; eauto).
  split; [split; [reflexivity|]; split; [reflexivity|auto]|]. auto.
Qed.

(** Exact bookkeeping error of every operation: [len()] minus the number of
    elements changes only when slices are deleted or assigned. *)
Definition excess (c : cont) : Z := (n_layer V c - Z.of_nat (length (items V c)))%Z.

Lemma clamp_le z n : (clamp_index z n <= n)%nat.
Proof. unfold clamp_index. destruct (Z.ltb_spec z 0); lia. Qed.
Lemma slice_lo_le a n : (slice_lo a n <= n)%nat. Proof. destruct a; cbn; [apply clamp_le|lia]. Qed.
Lemma slice_hi_le a n : (slice_hi a n <= n)%nat. Proof. destruct a; cbn; [apply clamp_le|lia]. Qed.

Theorem C39_slice_deletion_breaks_length : forall c a b,
  let n := length (items V c) in
  let k := length (slice (slice_lo a n) (slice_hi b n) (items V c)) in
  let c' := fst (cstep V isinst conv iter c (CDel V (ISlice a b))) in
  snd (cstep V isinst conv iter c (CDel V (ISlice a b))) = Ok (RNone V) /\
  length (items V c') = (n - k)%nat /\ (k <= n)%nat /\
  n_layer V c' = (n_layer V c - 1)%Z /\ excess c' = (excess c + Z.of_nat k - 1)%Z.
Proof.
  intros c a b n k c'. split; [reflexivity|].
  assert (Hk : k = (slice_hi b n - slice_lo a n)%nat).
  { unfold k. rewrite slice_length. fold n. pose proof (slice_hi_le b n). pose proof (slice_lo_le a n). lia. }
  assert (Hl : length (items V c') = (n - k)%nat).
  { unfold c'. cbn [cstep c_del fst items]. fold n. rewrite app_length, firstn_length, skipn_length. fold n.
    pose proof (slice_hi_le b n). pose proof (slice_lo_le a n). lia. }
  pose proof (slice_hi_le b n). pose proof (slice_lo_le a n).
  split; [exact Hl|]. split; [lia|]. split; [reflexivity|]. unfold excess. rewrite Hl. unfold c'. cbn [cstep c_del fst n_layer]. fold n. lia.
Qed.

Theorem C39_only_slices_break_length : forall c o,
  (match o with CDel _ (ISlice _ _) | CSet _ (ISlice _ _) _ => False | _ => True end) ->
  excess (fst (cstep V isinst conv iter c o)) = excess c.
Proof.
  intros c o Ho. destruct o as [i|i v|i|v|]; cbn [cstep fst]; try reflexivity.
  - unfold c_set. destruct (_ && _); [reflexivity|]. destruct i as [z|a b|]; [|destruct Ho|reflexivity].
    rewrite index_place. destruct (place z _) as [p|] eqn:E; [|reflexivity]. apply place_lt in E.
    unfold excess. cbn [fst with_items items n_layer]. rewrite replace_split by exact E.
    rewrite app_length, firstn_length. cbn [length]. rewrite skipn_length. lia.
  - unfold c_del. destruct i as [z|a b|]; [|destruct Ho|reflexivity].
    rewrite index_place. destruct (place z _) as [p|] eqn:E; [|reflexivity]. apply place_lt in E.
    unfold excess. cbn [fst items n_layer]. rewrite remove_split by exact E.
    rewrite app_length, firstn_length, skipn_length. lia.
  - unfold c_append. destruct (negb (checked V c)); [reflexivity|]. destruct (isinst v); [|reflexivity].
    unfold excess. cbn [negb fst items n_layer]. rewrite app_length. cbn [length]. lia.
Qed.

(** Slice assignment into a parameter container: the elements are replaced, the
    length is not updated. *)
Theorem C39_slice_assignment : forall c a b v new, checked V c = false -> iter v = Some new ->
  let n := length (items V c) in
  let k := length (slice (slice_lo a n) (slice_hi b n) (items V c)) in
  let r := cstep V isinst conv iter c (CSet V (ISlice a b) v) in
  snd r = Ok (RNone V) /\ excess (fst r) = (excess c + Z.of_nat k - Z.of_nat (length new))%Z.
Proof.
  intros c a b v new Hc Hi n k r. unfold r. cbn [cstep]. unfold c_set. rewrite Hc, Hi. cbn [andb snd fst]. split; [reflexivity|].
  unfold excess. cbn [with_items items n_layer]. unfold k. rewrite slice_length. rewrite !app_length, firstn_length, skipn_length. fold n.
  pose proof (slice_hi_le b n). pose proof (slice_lo_le a n). lia.
Qed.

(** Parameter containers accept objects of any type; a slice of them then raises. *)
Theorem C39_params_not_type_checked : forall c i v, checked V c = false -> (0 <= i < Z.of_nat (length (items V c)))%Z ->
  conv v = Err TypeError -> (forall v, In v (items V c) -> isinst v = true) -> (forall v, isinst v = true -> conv v = Ok v) ->
  let r := cstep V isinst conv iter c (CSet V (IInt i) v) in
  snd r = Ok (RNone V) /\ In v (items V (fst r)) /\
  snd (cstep V isinst conv iter (fst r) (CGet V (ISlice None None))) = Err TypeError.
Proof.
  intros c i v Hc Hi Hv HF Hid r.
  assert (E : index_of i (length (items V c)) = Some (Z.to_nat i)).
  { unfold index_of. rewrite (proj2 (Z.leb_le 0 i)), (proj2 (Z.ltb_lt i _)) by lia. reflexivity. }
  unfold r. cbn [cstep]. unfold c_set. rewrite Hc. cbn [andb]. rewrite E. cbn [snd fst]. split; [reflexivity|].
  cbn [with_items items]. rewrite replace_split by lia. split; [apply in_or_app; right; left; reflexivity|].
  unfold c_get, c_init. cbn [with_items items checked slice_lo slice_hi]. unfold slice. rewrite Nat.sub_0_r. cbn [skipn]. rewrite firstn_all.
  assert (X : forall l r, Forall (fun v => isinst v = true) l -> map_res conv (l ++ v :: r) = Err TypeError).
  { induction l as [|x l IH]; cbn; intros r' HF'.
    - rewrite Hv. reflexivity.
    - rewrite (Hid x (Forall_inv HF')). cbn. rewrite IH by (apply (Forall_inv_tail HF')). reflexivity. }
  rewrite X; [reflexivity|]. apply Forall_firstn', Forall_forall, HF.
Qed.
End Spec.

(** Concrete container: odd numbers as instances. *)
Definition ex_c : container nat := {| items := [1; 3; 5; 7]%nat; n_layer := 4; checked := true |}.
Definition ex_conv (v : nat) : res nat := if Nat.odd v then Ok v else Err TypeError.
Example C39_instance :
  sound nat Nat.odd true ex_c /\
  items nat (cruns nat Nat.odd ex_conv (fun _ => None) ex_c
    [CSet nat (IInt (-1)) 9; CAppend nat 2; CAppend nat 11; CDel nat (IInt 0)])%nat = [3; 5; 9; 11]%nat /\
  excess nat (cruns nat Nat.odd ex_conv (fun _ => None) ex_c [CDel nat (ISlice (Some 1%Z) (Some 3%Z))]) = 1%Z.
Proof.
  split; [|split; reflexivity]. split; [reflexivity|]. split; [reflexivity|]. intros _. repeat constructor.
Qed.
