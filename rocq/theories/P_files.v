(** Lemmas about the file-system model. *)
From Coq Require Import List Bool String Arith Lia.
From Verif Require Import Base M_files.
Import ListNotations.
Open Scope string_scope.
Open Scope list_scope.

Lemma path_eqb_spec p q : reflect (p = q) (path_eqb p q).
Proof. unfold path_eqb. destruct (list_eq_dec string_dec p q); constructor; auto. Qed.
Lemma path_eqb_refl p : path_eqb p p = true.
Proof. destruct (path_eqb_spec p p); congruence. Qed.

Lemma look_nil f : look f [] = Some Dir.
Proof. reflexivity. Qed.

Lemma look_cons_list e f q : q <> [] -> look (e :: f) q = if path_eqb (fst e) q then Some (snd e) else look f q.
Proof. intros H. destruct q; [congruence|]. unfold look. cbn [find]. destruct (path_eqb (fst e) (s :: q)); reflexivity. Qed.

Lemma look_filter_keep (P : path * kind -> bool) f q : (forall e, fst e = q -> P e = true) -> look (filter P f) q = look f q.
Proof.
  intros H. destruct q as [|c q]; [reflexivity|]. induction f as [|e f IH]; [reflexivity|].
  cbn [filter]. rewrite (look_cons_list e f) by discriminate. destruct (path_eqb_spec (fst e) (c :: q)) as [E|E].
  - rewrite (H e E), look_cons_list by discriminate. rewrite E, path_eqb_refl. reflexivity.
  - destruct (P e); [rewrite look_cons_list by discriminate; destruct (path_eqb_spec (fst e) (c :: q)); [contradiction|]|]; exact IH.
Qed.

Lemma look_del_other f p q : q <> p -> look (del f p) q = look f q.
Proof. intros H. apply look_filter_keep. intros e E. destruct (path_eqb_spec (fst e) p); [congruence|reflexivity]. Qed.

Lemma look_del_same f p : p <> [] -> look (del f p) p = None.
Proof.
  intros Hp. induction f as [|e f IH]; [destruct p; [congruence|reflexivity]|]. cbn [del filter].
  destruct (path_eqb_spec (fst e) p); cbn [negb]; [exact IH|]. rewrite look_cons_list by auto.
  destruct (path_eqb_spec (fst e) p); [contradiction|]. exact IH.
Qed.

Lemma look_put_other f p k q : q <> p -> look (put f p k) q = look f q.
Proof.
  intros H. destruct q as [|c q]; [reflexivity|]. unfold put. rewrite look_cons_list by discriminate. cbn [fst snd].
  destruct (path_eqb_spec p (c :: q)); [congruence|]. apply look_del_other, H.
Qed.

Lemma look_put_same f p k : p <> [] -> look (put f p k) p = Some k.
Proof. intros H. unfold put. rewrite look_cons_list by auto. cbn [fst snd]. rewrite path_eqb_refl. reflexivity. Qed.

Lemma look_In f p k : In (p, k) f -> look f p <> None.
Proof.
  intros H. destruct p as [|c p]; [discriminate|]. unfold look.
  destruct (find (fun e => path_eqb (fst e) (c :: p)) f) eqn:E; [discriminate|].
  apply (find_none _ _ E) in H. cbn in H. rewrite path_eqb_refl in H. discriminate.
Qed.
Lemma In_look f p k : p <> [] -> look f p = Some k -> exists k', In (p, k') f.
Proof.
  intros Hp. unfold look. destruct p as [|c p]; [congruence|].
  destruct (find (fun e => path_eqb (fst e) (c :: p)) f) as [[q k']|] eqn:E; [|discriminate].
  intros _. apply find_some in E as [Hin Heq]. cbn in Heq. destruct (path_eqb_spec q (c :: p)); [subst|discriminate]. eauto.
Qed.

Lemma children_look f p : has_children f p = true <-> exists c, look f (c :: p) <> None.
Proof.
  unfold has_children. rewrite existsb_exists. split.
  - intros ([q k] & Hin & H). destruct q as [|c q]; [discriminate|]. cbn in H. destruct (path_eqb_spec q p); [subst|discriminate].
    exists c. eapply look_In; eauto.
  - intros (c & H). destruct (look f (c :: p)) as [k|] eqn:E; [|congruence].
    destruct (In_look f (c :: p) k ltac:(discriminate) E) as (k' & Hin). exists (c :: p, k'). split; [exact Hin|]. cbn. apply path_eqb_refl.
Qed.

(** Every entry sits in a directory. *)
Definition closed (f : fs) : Prop := forall c p k, look f (c :: p) = Some k -> look f p = Some Dir.

(** [q] is [p] or below it. *)
Definition under (p q : path) : Prop := exists l, q = l ++ p.

Lemma under_refl p : under p p.
Proof. exists []. reflexivity. Qed.
Lemma under_trans (p q r : path) : under p q -> under q r -> under p r.
Proof. intros [l ->] [m ->]. exists (m ++ l). rewrite app_assoc. reflexivity. Qed.
Lemma under_cons c p q : under (c :: p) q -> under p q.
Proof. intros [l ->]. exists (l ++ [c]). rewrite <- app_assoc. reflexivity. Qed.
Lemma under_inv p c q : under p (c :: q) -> p = c :: q \/ under p q.
Proof. intros [[|d l] E]; [left; cbn in E; auto|]. right. injection E as -> ->. exists l. reflexivity. Qed.
Lemma under_length p q : under p q -> (List.length p <= List.length q)%nat.
Proof. intros [l ->]. rewrite app_length. lia. Qed.
Lemma under_antisym (p q : path) : under p q -> under q p -> p = q.
Proof.
  intros [l ->] [m E]. assert (H := f_equal (@List.length _) E). rewrite !app_length in H.
  destruct l; [reflexivity|cbn in H; lia].
Qed.
Lemma under_dec p q : {under p q} + {~ under p q}.
Proof.
  induction q as [|c q IH].
  - destruct p; [left; exists []; reflexivity|right; intros [l E]; destruct l; discriminate].
  - destruct (list_eq_dec string_dec p (c :: q)) as [->|Hne]; [left; apply under_refl|].
    destruct IH as [H|H]; [left; destruct H as [l ->]; exists (c :: l); reflexivity|].
    right. intros Hu. apply under_inv in Hu as [|]; auto.
Qed.
Lemma under_total a b p : under a p -> under b p -> under a b \/ under b a.
Proof.
  intros [l ->]. revert b. induction l as [|c l IH]; intros b Hb; [right; exact Hb|].
  cbn in Hb. apply under_inv in Hb as [-> |Hb]; [left; exists (c :: l); reflexivity|]. apply IH, Hb.
Qed.

Lemma closed_above f p q k : closed f -> under p q -> look f q = Some k -> p <> q -> look f p = Some Dir.
Proof.
  intros Hc [l ->]. revert k. induction l as [|c l IH]; intros k H Hne; [contradiction|].
  cbn in H. apply Hc in H. destruct l as [|d l]; [exact H|]. eapply IH; [exact H|].
  intros E. apply (f_equal (@List.length _)) in E. rewrite app_length in E. cbn in E. lia.
Qed.

Lemma closed_fresh f p q : closed f -> look f p = None -> under p q -> look f q = None.
Proof.
  intros Hc Hn Hu. destruct (look f q) as [k|] eqn:E; [|reflexivity].
  destruct (list_eq_dec string_dec p q) as [->|Hne]; [congruence|]. rewrite (closed_above f p q k Hc Hu E Hne) in Hn. discriminate.
Qed.

Lemma put_closed f c p k : closed f -> look f p = Some Dir -> (look f (c :: p) = None \/ look f (c :: p) = Some File) -> closed (put f (c :: p) k).
Proof.
  intros Hc Hp Hno d q k' H.
  assert (Hnd : q <> c :: p -> look (put f (c :: p) k) q = look f q) by (intros; apply look_put_other; auto).
  destruct (list_eq_dec string_dec (d :: q) (c :: p)) as [E|E].
  - injection E as -> ->. rewrite look_put_other; [exact Hp|]. intros E. apply (f_equal (@List.length _)) in E. cbn in E. lia.
  - rewrite look_put_other in H by auto. apply Hc in H. destruct (list_eq_dec string_dec q (c :: p)) as [E1|E1].
    + subst q. destruct Hno; congruence.
    + rewrite Hnd; auto.
Qed.

(** ** makedirs *)
Lemma mkdirs_ok p : forall f f', mkdirs f p = Ok f' -> 
  look f p = None /\ look f' p = Some Dir /\
  (forall q k, look f q = Some k -> look f' q = Some k) /\
  (forall q k, look f q = None -> look f' q = Some k -> k = Dir /\ under q p) /\
  (closed f -> closed f').
Proof.
  induction p as [|c p IH]; intros f f' H; [discriminate|]. cbn [mkdirs] in H.
  unfold exists_ in H. destruct (look f p) as [kp|] eqn:Ep.
  - cbn [bind] in H. destruct (look f (c :: p)) eqn:Ec; [discriminate|]. rewrite Ep in H. destruct kp; [discriminate|]. injection H as <-.
    split; [reflexivity|]. split; [apply look_put_same; discriminate|]. split; [|split].
    + intros q k Hq. rewrite look_put_other; [exact Hq|congruence].
    + intros q k Hn Hs. destruct (list_eq_dec string_dec q (c :: p)) as [->|Hne].
      * rewrite look_put_same in Hs by discriminate. injection Hs as <-. split; [reflexivity|apply under_refl].
      * rewrite look_put_other in Hs by auto. congruence.
    + intros Hc. apply put_closed; auto.
  - destruct (mkdirs f p) as [f1|] eqn:Em; cbn [bind] in H; [|discriminate].
    destruct (IH _ _ Em) as (H0 & H1 & H2 & H3 & H5).
    destruct (look f1 (c :: p)) eqn:Ec; [discriminate|]. rewrite H1 in H. injection H as <-.
    assert (Ecf : look f (c :: p) = None).
    { destruct (look f (c :: p)) eqn:E; [|reflexivity]. rewrite (H2 _ _ E) in Ec. discriminate. }
    split; [exact Ecf|]. split; [apply look_put_same; discriminate|]. split; [|split].
    + intros q k Hq. rewrite look_put_other; [apply H2, Hq|congruence].
    + intros q k Hn Hs. destruct (list_eq_dec string_dec q (c :: p)) as [->|Hne].
      * rewrite look_put_same in Hs by discriminate. injection Hs as <-. split; [reflexivity|apply under_refl].
      * rewrite look_put_other in Hs by auto. destruct (H3 _ _ Hn Hs) as [-> Hu]. split; [reflexivity|].
        destruct Hu as [l ->]. exists (c :: l). reflexivity.
    + intros Hc. apply put_closed; auto.
Qed.

Lemma mkdirs_exists f p : closed f -> look f p <> None -> mkdirs f p = Err FileExistsError.
Proof.
  intros Hc H. destruct p as [|c p]; [reflexivity|]. cbn [mkdirs].
  destruct (look f (c :: p)) as [k|] eqn:E; [|congruence]. unfold exists_. rewrite (Hc _ _ _ E). cbn [bind]. rewrite E. reflexivity.
Qed.

Lemma under_tail c p : under p (c :: p).
Proof. exists [c]. reflexivity. Qed.
Lemma not_under_tail c p : ~ under (c :: p) p.
Proof. intros H. apply under_length in H. cbn in H. lia. Qed.

Lemma mkdirs_complete p : forall f, look f p = None -> (forall q, under q p -> look f q <> Some File) -> exists f', mkdirs f p = Ok f'.
Proof.
  induction p as [|c p IH]; intros f Hn Hf; [discriminate|]. cbn [mkdirs]. unfold exists_.
  destruct (look f p) as [k|] eqn:E.
  - cbn [bind]. rewrite Hn, E. destruct k; [|eauto]. exfalso. apply (Hf p); [apply under_tail|exact E].
  - destruct (IH f E) as (f1 & H1). { intros q Hq. apply Hf. eapply under_trans; [exact Hq|apply under_tail]. }
    rewrite H1. cbn [bind]. destruct (mkdirs_ok _ _ _ H1) as (_ & A & _ & B & _).
    destruct (look f1 (c :: p)) as [k|] eqn:E1; [|rewrite A; eauto].
    destruct (B _ _ Hn E1) as [_ Hu]. destruct (not_under_tail _ _ Hu).
Qed.

Lemma mkdirs_blocked p : forall f q, closed f -> look f p = None -> under q p -> look f q = Some File -> mkdirs f p = Err OSError_.
Proof.
  induction p as [|c p IH]; intros f q Hc Hn Hu Hq; [discriminate|]. cbn [mkdirs]. unfold exists_.
  apply under_inv in Hu as [-> |Hu]; [congruence|].
  destruct (look f p) as [k|] eqn:E.
  - cbn [bind]. rewrite Hn, E. destruct k; [reflexivity|]. exfalso.
    destruct (list_eq_dec string_dec q p) as [->|Hne]; [congruence|].
    rewrite (closed_above f q p Dir Hc Hu E Hne) in Hq. discriminate.
  - rewrite (IH f q Hc E Hu Hq). reflexivity.
Qed.

(** ** What the steps may touch *)
Definition only_files_in (base : fs) (P : path) (f : fs) : Prop :=
  (forall q, ~ under P q -> look f q = look base q) /\ look f P = Some Dir /\
  (forall l k, l <> [] -> look f (l ++ P) = Some k -> k = File /\ exists x, l = [x]).

Lemma in_dir (P : path) x : ~ under (x :: P) P /\ under P (x :: P).
Proof. split; [apply not_under_tail|apply under_tail]. Qed.

Lemma app_inj_len (l m : path) P : l ++ P = m ++ P -> l = m.
Proof. apply app_inv_tail. Qed.

Lemma only_put base P f x : only_files_in base P f -> only_files_in base P (put f (x :: P) File).
Proof.
  intros (A & B & C). split; [|split].
  - intros q Hq. rewrite look_put_other; [apply A, Hq|]. intros ->. apply Hq, under_tail.
  - rewrite look_put_other; [exact B|]. intros E. apply (f_equal (@List.length _)) in E. cbn in E. lia.
  - intros l k Hl H. destruct (list_eq_dec string_dec (l ++ P) (x :: P)) as [E|E].
    + rewrite E, look_put_same in H by discriminate. injection H as <-. split; [reflexivity|]. exists x. apply (app_inj_len l [x] P E).
    + rewrite look_put_other in H by auto. eauto.
Qed.

Lemma look_filter_name (g : path -> bool) f q : q <> [] -> look (filter (fun e => g (fst e)) f) q = if g q then look f q else None.
Proof.
  intros Hq. induction f as [|e f IH]; [destruct q; [congruence|]; destruct (g (s :: q)); reflexivity|].
  cbn [filter]. rewrite (look_cons_list e f) by auto. destruct (path_eqb_spec (fst e) q) as [E|E].
  - rewrite E in *. destruct (g q) eqn:G; [rewrite look_cons_list by auto; rewrite E, path_eqb_refl; reflexivity|exact IH].
  - destruct (g (fst e)); [rewrite look_cons_list by auto; destruct (path_eqb_spec (fst e) q); [contradiction|]|]; exact IH.
Qed.

Lemma only_filter base P (g : path -> bool) f :
  P <> [] -> (forall q, ~ (exists x, q = x :: P) -> g q = true) -> only_files_in base P f ->
  only_files_in base P (filter (fun e => g (fst e)) f).
Proof.
  intros HP Hg (A & B & C). split; [|split].
  - intros q Hq. destruct (list_eq_dec string_dec q []) as [->|Hn]; [apply (A [] Hq)|].
    rewrite look_filter_name by auto. rewrite Hg; [apply A, Hq|]. intros (x & ->). apply Hq, under_tail.
  - rewrite look_filter_name by auto. rewrite Hg; [exact B|]. intros (x & E). apply (f_equal (@List.length _)) in E. cbn in E. lia.
  - intros l k Hl H. rewrite look_filter_name in H; [|destruct l; [congruence|discriminate]]. destruct (g (l ++ P)); [eauto|discriminate].
Qed.

Lemma del_is_filter f p : del f p = filter (fun e => negb (path_eqb (fst e) p)) f.
Proof. reflexivity. Qed.

Lemma only_write base P f x f' : only_files_in base P f -> write_file f P x = Ok f' -> only_files_in base P f'.
Proof.
  intros H. unfold write_file. destruct (look f P) as [[|]|]; [discriminate| |discriminate].
  destruct (look f (x :: P)) as [[|]|]; intros E; try discriminate; injection E as <-; apply only_put, H.
Qed.
Lemma only_writes base P l : forall f f', only_files_in base P f -> write_files f P l = Ok f' -> only_files_in base P f'.
Proof.
  induction l as [|x l IH]; intros f f' H E; cbn [write_files] in E; [injection E as <-; exact H|].
  destruct (write_file f P x) as [f1|] eqn:E1; [|discriminate]. cbn [bind] in E. eapply IH; [|exact E]. eapply only_write; eauto.
Qed.

(** A step that stays in [P], with the working directory [cwd]. *)
Definition stays (P cwd : path) (s : step) : Prop :=
  match s with
  | Compute => True
  | WriteIn n _ | Save n _ => resolve cwd n = P
  | Kernel _ | Read _ | RemoveDat | Remove _ => cwd = P
  | Enter _ | Return _ | RemoveDirs _ => False
  end.

Lemma stays_exec base P s w w' r : P <> [] -> stays P (w_cwd w) s -> only_files_in base P (w_fs w) -> exec s w = (w', r) ->
  only_files_in base P (w_fs w') /\ w_cwd w' = w_cwd w.
Proof.
  intros HP Hs H E. destruct w as [f cwd]. unfold exec in E. cbn [w_fs w_cwd] in *.
  destruct s; cbn [stays] in Hs; try contradiction.
  - injection E as <- <-. auto.
  - rewrite Hs in E. destruct (write_file f P file) as [f1|] eqn:Ew; injection E as <- <-; [|auto].
    split; [|reflexivity]. eapply only_write; eauto.
  - subst cwd. destruct (write_files f P outputs) as [f1|] eqn:Ew; injection E as <- <-; [|auto].
    split; [|reflexivity]. eapply only_writes; eauto.
  - destruct (look f (file :: cwd)) as [[|]|]; injection E as <- <-; auto.
  - injection E as <- <-. split; [|reflexivity]. cbn [w_fs]. subst cwd.
    apply (only_filter base P (fun p => negb (dat_file f P p))); [exact HP| |exact H].
    intros q Hq. unfold dat_file. destruct q as [|x q]; [destruct (look f []); reflexivity|]. destruct (look f (x :: q)) as [[|]|]; try reflexivity.
    destruct (path_eqb_spec q P); [subst; exfalso; eauto|reflexivity].
  - subst cwd. destruct (look f (file :: P)) as [[|]|] eqn:El; injection E as <- <-; auto. split; [|reflexivity]. cbn [w_fs].
    apply (only_filter base P (fun p => negb (path_eqb p (file :: P)))); [exact HP| |exact H].
    intros q Hq. destruct (path_eqb_spec q (file :: P)); [subst; exfalso; eauto|reflexivity].
  - rewrite Hs in E. destruct (proj2 H) as (B & _). unfold exists_ in E. rewrite B in E. cbn [bind] in E.
    destruct (write_files f P files) as [f1|] eqn:Ew; injection E as <- <-; cbn [w_fs w_cwd]; [|auto].
    split; [|reflexivity]. eapply only_writes; eauto.
Qed.

Lemma stays_run base P fail l : forall k w w' k' r, P <> [] -> Forall (stays P (w_cwd w)) l -> only_files_in base P (w_fs w) ->
  run_steps fail k l w = (w', k', r) ->
  only_files_in base P (w_fs w') /\ w_cwd w' = w_cwd w /\ (k <= k' <= k + List.length l)%nat /\ (r = Ok tt -> k' = k + List.length l)%nat.
Proof.
  induction l as [|s l IH]; intros k w w' k' r HP Hs H E; cbn [run_steps] in E; cbn [List.length].
  - injection E as <- <- <-. split; [exact H|]. split; [reflexivity|]. split; [lia|intros; lia].
  - inversion Hs; subst.
    destruct (exec s w) as [w1 r1] eqn:Ex. destruct (stays_exec base P s w w1 r1 HP H2 H Ex) as [A B].
    destruct (fail k) as [[[|] e]|].
    + destruct r1; injection E as <- <- <-; (split; [exact A|]; split; [exact B|]; split; [lia|discriminate]).
    + injection E as <- <- <-. split; [exact H|]. split; [reflexivity|]. split; [lia|discriminate].
    + destruct r1 as [u|e]; [|injection E as <- <- <-; split; [exact A|]; split; [exact B|]; split; [lia|discriminate]].
      rewrite <- B in H3. destruct (IH _ _ _ _ _ HP H3 A E) as (C1 & C2 & C3 & C4).
      split; [exact C1|]. split; [congruence|]. split; [lia|]. intros Hr. specialize (C4 Hr). lia.
Qed.

Lemma run_steps_app fail l1 : forall k l2 w, run_steps fail k (l1 ++ l2) w =
  match run_steps fail k l1 w with (w', k', Ok _) => run_steps fail k' l2 w' | (w', k', Err e) => (w', k', Err e) end.
Proof.
  induction l1 as [|s l1 IH]; intros k l2 w; [reflexivity|]. cbn [app run_steps].
  destruct (fail k) as [[[|] e]|]; [destruct (exec s w) as [w' [|]]; reflexivity|reflexivity|].
  destruct (exec s w) as [w' [|]]; [apply IH|reflexivity].
Qed.

Lemma only_start f P f1 : closed f -> mkdirs f P = Ok f1 -> P <> [] /\ only_files_in f1 P f1.
Proof.
  intros Hc H. destruct (mkdirs_ok _ _ _ H) as (A & B & C & D & _). split; [intros ->; discriminate|].
  split; [auto|]. split; [exact B|]. intros l k Hl Hk. exfalso.
  destruct (D (l ++ P) k) as [_ Hu]; [apply (closed_fresh f P); [exact Hc|exact A|exists l; reflexivity]|exact Hk|].
  apply under_length in Hu. rewrite app_length in Hu. destruct l; [congruence|cbn in Hu; lia].
Qed.

Lemma only_closed base P f : closed base -> look base P = Some Dir -> P <> [] -> only_files_in base P f -> closed f.
Proof.
  intros Hc HbP HP (A & B & C) c p k H. destruct (under_dec P (c :: p)) as [Hu|Hu].
  - apply under_inv in Hu as [E|[l ->]].
    + subst P. rewrite A by apply not_under_tail. eapply Hc. exact HbP.
    + destruct (C (c :: l) k) as [_ (x & E)]; [discriminate|exact H|]. injection E as -> ->. exact B.
  - rewrite A in H by auto. rewrite A. { eapply Hc; eauto. } intros Hu2. apply Hu. eapply under_trans; [exact Hu2|apply under_tail].
Qed.

(** ** removedirs *)
Definition pruned (f f' : fs) (P : path) : Prop :=
  forall q, look f' q = look f q \/
    (look f q = Some Dir /\ look f' q = None /\ under q P /\ forall r, under q r -> look f r <> None -> under r P).

Lemma rmdir_ok f p f' : rmdir f p = Ok f' -> p <> [] /\ look f p = Some Dir /\ (forall c, look f (c :: p) = None) /\ f' = del f p.
Proof.
  unfold rmdir. destruct p as [|c p]; [discriminate|]. destruct (look f (c :: p)) as [[|]|] eqn:E; try discriminate.
  destruct (has_children f (c :: p)) eqn:Hh; [discriminate|]. intros H. injection H as <-. split; [discriminate|]. split; [reflexivity|].
  split; [|reflexivity]. intros d. destruct (look f (d :: c :: p)) eqn:E1; [|reflexivity].
  assert (has_children f (c :: p) = true) by (apply children_look; exists d; congruence). congruence.
Qed.

Lemma del_closed f p : closed f -> p <> [] -> (forall c, look f (c :: p) = None) -> closed (del f p).
Proof.
  intros Hc Hp Hn c q k H. destruct (list_eq_dec string_dec (c :: q) p) as [E|E]; [subst p; rewrite look_del_same in H by discriminate; discriminate|].
  rewrite look_del_other in H by auto. destruct (list_eq_dec string_dec q p) as [->|Hq]; [rewrite Hn in H; discriminate|].
  rewrite look_del_other by auto. eapply Hc; eauto.
Qed.

Lemma pruned_step f p f' : closed f -> p <> [] -> (forall c, look f (c :: p) = None) -> look f p = Some Dir ->
  pruned (del f p) f' (tl p) -> pruned f f' p.
Proof.
  intros Hc Hp Hn Hd H q. destruct (list_eq_dec string_dec q p) as [->|Hq].
  - right. split; [exact Hd|]. split.
    + destruct (H p) as [E|(E & _)]; rewrite look_del_same in E by auto; [exact E|discriminate].
    + split; [apply under_refl|]. intros r Hr Hx. destruct (list_eq_dec string_dec r p) as [->|Hrp]; [apply under_refl|]. exfalso. apply Hx.
      destruct Hr as [l Hr]. subst r. destruct (list_eq_dec string_dec l []) as [->|Hl]; [cbn in Hrp; congruence|].
      destruct (exists_last Hl) as (l' & c & ->). rewrite <- app_assoc.
      apply (closed_fresh f ([c] ++ p)); [exact Hc|apply Hn|exists l'; reflexivity].
  - destruct (H q) as [E|(E1 & E2 & E3 & E4)].
    + left. rewrite E. apply look_del_other, Hq.
    + right. rewrite look_del_other in E1 by auto. split; [exact E1|]. split; [exact E2|].
      assert (Ht : under (tl p) p) by (destruct p; [congruence|apply under_tail]).
      split; [eapply under_trans; eauto|]. intros r Hr Hx. destruct (list_eq_dec string_dec r p) as [->|Hrp]; [apply under_refl|].
      eapply under_trans; [|exact Ht]. apply E4; [exact Hr|]. rewrite look_del_other by auto. exact Hx.
Qed.

Lemma prune_spec cs : forall f p, closed f -> pruned f (prune f cs p) p.
Proof.
  induction cs as [|c cs IH]; intros f p Hc; [intros q; left; reflexivity|]. cbn [prune].
  destruct (String.eqb c "."); [intros q; left; reflexivity|]. destruct (String.eqb c ""); [apply IH, Hc|].
  destruct (rmdir f p) as [f'|] eqn:E; [|intros q; left; reflexivity].
  destruct (rmdir_ok _ _ _ E) as (Hp & Hd & Hn & ->). apply pruned_step; auto. apply IH, del_closed; auto.
Qed.

Lemma removedirs_spec f cwd n f' : closed f -> removedirs f cwd n = Ok f' ->
  pruned f f' (resolve cwd n) /\ look f' (resolve cwd n) = None /\ (forall c, look f (c :: resolve cwd n) = None).
Proof.
  intros Hc H. unfold removedirs in H. destruct (rmdir f (resolve cwd n)) as [f1|] eqn:E; [|discriminate]. cbn [bind] in H. injection H as <-.
  destruct (rmdir_ok _ _ _ E) as (Hp & Hd & Hn & ->). set (P := resolve cwd n) in *.
  assert (Hpr := prune_spec (tl (drop_noise (rev (n_comps n)))) (del f P) (tl P) (del_closed _ _ Hc Hp Hn)).
  split; [apply pruned_step; auto|]. split; [|exact Hn].
  destruct (Hpr P) as [E1|(E1 & _)]; rewrite look_del_same in E1 by auto; [exact E1|discriminate].
Qed.

(** ** The parts of the program *)
Definition saving (q : request) (n : name) : list step :=
  Compute :: (if q_show q then [if q_save_fig q then Save n (q_figs q) else Compute] else []) ++
  (if q_save_txt q then [Save n (q_txts q)] else []).
Definition removing (q : request) : bool := negb (q_save_txt q) && negb (q_save_fig q) && q_remove q.
Definition entered (q : request) : nat := S (List.length (before q (wanted q))).
Definition returned (q : request) : nat := entered q + S (List.length (inside q)).

Lemma program_parts q cwd n : program q cwd n =
  before q n ++ Enter n :: inside q ++ Return cwd :: saving q n ++ (if removing q then [RemoveDirs n] else []).
Proof. unfold program, after, saving, removing. cbn [app]. rewrite <- app_assoc. reflexivity. Qed.

Lemma before_length q n m : List.length (before q n) = List.length (before q m).
Proof. reflexivity. Qed.

Lemma before_stays q n cwd : Forall (stays (resolve cwd n) cwd) (before q n).
Proof. unfold before, inputs. repeat constructor. Qed.
Lemma inside_stays q P : Forall (stays P P) (inside q).
Proof. unfold inside, outputs. repeat constructor. Qed.
Lemma saving_stays q n cwd : Forall (stays (resolve cwd n) cwd) (saving q n).
Proof. unfold saving. constructor; [exact I|]. destruct (q_show q), (q_save_fig q), (q_save_txt q); cbn [app]; repeat constructor. Qed.

(** Where the process is after [k] steps. *)
Definition place (q : request) (P cwd : path) (k : nat) : path :=
  if (Nat.leb (entered q) k && Nat.ltb k (returned q))%bool then P else cwd.

Lemma main_run q cwd n fail base w' k r : let P := resolve cwd n in
  P <> [] -> only_files_in base P base ->
  run_steps fail 0 (before q n ++ Enter n :: inside q ++ Return cwd :: saving q n) (mkworld base cwd) = (w', k, r) ->
  only_files_in base P (w_fs w') /\ w_cwd w' = place q P cwd k /\ (r = Ok tt -> (returned q <= k)%nat).
Proof.
  intros P HP H0 E. rewrite run_steps_app in E.
  destruct (run_steps fail 0 (before q n) (mkworld base cwd)) as [[w1 k1] r1] eqn:E1.
  destruct (stays_run base P fail _ _ (mkworld base cwd) _ _ _ HP (before_stays q n cwd) H0 E1) as (A1 & A2 & A3 & A4).
  rewrite (before_length q n (wanted q)) in A3, A4. cbn [w_cwd] in A2.
  assert (Hret : returned q = (entered q + S (List.length (inside q)))%nat) by reflexivity.
  assert (Hent : entered q = S (List.length (before q (wanted q)))) by reflexivity.
  assert (Pl1 : forall k0, (k0 < entered q)%nat -> place q P cwd k0 = cwd).
  { intros k0 Hk. unfold place. destruct (Nat.leb_spec (entered q) k0); [lia|reflexivity]. }
  assert (Pl2 : forall k0, (entered q <= k0 < returned q)%nat -> place q P cwd k0 = P).
  { intros k0 Hk. unfold place. destruct (Nat.leb_spec (entered q) k0); [|lia]. destruct (Nat.ltb_spec k0 (returned q)); [reflexivity|lia]. }
  assert (Pl3 : forall k0, (returned q <= k0)%nat -> place q P cwd k0 = cwd).
  { intros k0 Hk. unfold place. destruct (Nat.ltb_spec k0 (returned q)); [lia|]. rewrite andb_false_r. reflexivity. }
  destruct r1 as [[]|e1].
  2:{ injection E as <- <- <-. split; [exact A1|]. split; [rewrite Pl1; [exact A2|lia]|discriminate]. }
  specialize (A4 eq_refl). cbn [run_steps] in E. destruct w1 as [f1 c1]. cbn [w_fs w_cwd] in *. subst c1.
  assert (Ex : exec (Enter n) (mkworld f1 cwd) = (mkworld f1 P, Ok tt)).
  { unfold exec. cbn [w_fs w_cwd]. fold P. rewrite (proj1 (proj2 A1)). reflexivity. }
  rewrite Ex in E. destruct (fail k1) as [[[|] e]|].
  { injection E as <- <- <-. split; [exact A1|]. split; [rewrite Pl2; [reflexivity|lia]|discriminate]. }
  { injection E as <- <- <-. split; [exact A1|]. split; [rewrite Pl1; [reflexivity|lia]|discriminate]. }
  rewrite run_steps_app in E.
  destruct (run_steps fail (S k1) (inside q) (mkworld f1 P)) as [[w2 k2] r2] eqn:E2.
  destruct (stays_run base P fail _ _ (mkworld f1 P) _ _ _ HP (inside_stays q P) A1 E2) as (B1 & B2 & B3 & B4).
  cbn [w_cwd] in B2. destruct w2 as [f2 c2]. cbn [w_fs w_cwd] in *. subst c2.
  destruct r2 as [[]|e2].
  2:{ injection E as <- <- <-. split; [exact B1|]. split; [rewrite Pl2; [reflexivity|lia]|discriminate]. }
  specialize (B4 eq_refl). cbn [run_steps] in E.
  assert (Stuck : forall e, (mkworld f2 P, k2, @Err unit e) = (w', k, r) -> only_files_in base P (w_fs w') /\ w_cwd w' = place q P cwd k /\ (r = Ok tt -> (returned q <= k)%nat)).
  { intros e Ee. injection Ee as <- <- <-. split; [exact B1|]. split; [rewrite Pl2; [reflexivity|lia]|discriminate]. }
  destruct (exec (Return cwd) (mkworld f2 P)) as [w3 r3] eqn:Ex3.
  assert (Hr3 : (r3 = Ok tt /\ w3 = mkworld f2 cwd) \/ (w3 = mkworld f2 P /\ exists e, r3 = Err e)).
  { unfold exec in Ex3. cbn [w_fs w_cwd] in Ex3. destruct (look f2 cwd) as [[|]|]; injection Ex3 as <- <-; eauto. }
  destruct Hr3 as [[-> ->]|[-> [e ->]]].
  2:{ destruct (fail k2) as [[[|] e']|]; eapply Stuck; eassumption. }
  destruct (fail k2) as [[[|] e']|].
  { injection E as <- <- <-. split; [exact B1|]. split; [rewrite Pl3; [reflexivity|lia]|discriminate]. }
  { eapply Stuck; eassumption. }
  destruct (stays_run base P fail _ _ (mkworld f2 cwd) _ _ _ HP (saving_stays q n cwd) B1 E) as (C1 & C2 & C3 & C4).
  cbn [w_cwd] in C2. split; [exact C1|]. split; [rewrite Pl3; [exact C2|lia]|lia].
Qed.

(** ** What a successful run leaves in the directory *)
Definition there (f : fs) (P : path) (x : string) : Prop := look f (x :: P) <> None.

Lemma there_write f P x f' y : write_file f P x = Ok f' -> there f' P y <-> there f P y \/ y = x.
Proof.
  unfold write_file, there. intros H.
  assert (E : f' = put f (x :: P) File) by (destruct (look f P) as [[|]|]; try discriminate; destruct (look f (x :: P)) as [[|]|]; congruence).
  subst f'. destruct (string_dec y x) as [->|Hn].
  - rewrite look_put_same by discriminate. split; [auto|discriminate].
  - rewrite look_put_other by congruence. split; [auto|intros [|]; [auto|contradiction]].
Qed.
Lemma there_writes P l : forall f f' y, write_files f P l = Ok f' -> there f' P y <-> there f P y \/ In y l.
Proof.
  induction l as [|x l IH]; intros f f' y H; cbn [write_files] in H; [injection H as <-; cbn; tauto|].
  destruct (write_file f P x) as [f1|] eqn:E; [|discriminate]. cbn [bind] in H. rewrite (IH _ _ y H), (there_write _ _ _ _ y E).
  cbn [In]. split; [intros [[|]|]|intros [|[|]]]; auto.
Qed.

Lemma run_ok_cons fail k s l w w' k' : run_steps fail k (s :: l) w = (w', k', Ok tt) ->
  exists w1, exec s w = (w1, Ok tt) /\ run_steps fail (S k) l w1 = (w', k', Ok tt).
Proof.
  cbn [run_steps]. destruct (fail k) as [[[|] e]|]; [destruct (exec s w) as [? [|]]; discriminate|discriminate|].
  destruct (exec s w) as [w1 [[]|]]; [eauto|discriminate].
Qed.
Lemma run_ok_app fail k l m w w' k' : run_steps fail k (l ++ m) w = (w', k', Ok tt) ->
  exists w1 k1, run_steps fail k l w = (w1, k1, Ok tt) /\ run_steps fail k1 m w1 = (w', k', Ok tt).
Proof.
  rewrite run_steps_app. destruct (run_steps fail k l w) as [[w1 k1] [[]|]]; [eauto|discriminate].
Qed.
Lemma run_ok_nil fail k w w' k' : run_steps fail k [] w = (w', k', Ok tt) -> w' = w.
Proof. cbn. congruence. Qed.

Lemma run_inputs fail n l : forall k w w' k', run_steps fail k (map (WriteIn n) l) w = (w', k', Ok tt) ->
  w_cwd w' = w_cwd w /\ forall y, there (w_fs w') (resolve (w_cwd w) n) y <-> there (w_fs w) (resolve (w_cwd w) n) y \/ In y l.
Proof.
  induction l as [|x l IH]; intros k w w' k' H; [apply run_ok_nil in H; subst; split; [reflexivity|cbn; tauto]|].
  cbn [map] in H. apply run_ok_cons in H as (w1 & E & H). destruct (IH _ _ _ _ H) as (A & B). unfold exec in E.
  destruct (write_file (w_fs w) (resolve (w_cwd w) n) x) as [f1|] eqn:Ew; [|discriminate]. injection E as <-. cbn [w_fs w_cwd] in *.
  split; [exact A|]. intros y. rewrite B, (there_write _ _ _ _ y Ew). cbn [In]. split; [intros [[|]|]|intros [|[|]]]; auto.
Qed.
Lemma run_reads fail l : forall k w w' k', run_steps fail k (map Read l) w = (w', k', Ok tt) -> w' = w.
Proof.
  induction l as [|x l IH]; intros k w w' k' H; [eapply run_ok_nil, H|]. cbn [map] in H. apply run_ok_cons in H as (w1 & E & H).
  unfold exec in E. destruct (look (w_fs w) (x :: w_cwd w)) as [[|]|]; try discriminate. injection E as <-. eauto.
Qed.

Lemma run_inside q fail k w w' k' base P : w_cwd w = P -> P <> [] -> only_files_in base P (w_fs w) -> run_steps fail k (inside q) w = (w', k', Ok tt) ->
  w_cwd w' = P /\ only_files_in base P (w_fs w') /\
  forall y, there (w_fs w') P y <-> (there (w_fs w) P y \/ In y (q_out q)) /\ is_dat y = false /\ y <> q_exe q.
Proof.
  intros Hw HP Ho H. assert (Hs := stays_run base P fail (inside q) k w w' k' (Ok tt) HP). rewrite Hw in Hs.
  destruct (Hs (inside_stays q P) Ho H) as (S1 & S2 & _). split; [exact S2|]. split; [exact S1|]. clear Hs S1 S2.
  unfold inside in H. apply run_ok_cons in H as (w1 & E & H). injection E as <-.
  apply run_ok_cons in H as (w2 & E & H). unfold exec in E. rewrite Hw in E.
  destruct (write_files (w_fs w) P (q_out q)) as [f2|] eqn:Ew; [|discriminate]. injection E as <-.
  assert (Ho2 := only_writes _ _ _ _ _ Ho Ew).
  apply run_ok_app in H as (w3 & k3 & H3 & H). apply run_reads in H3. subst w3.
  apply run_ok_cons in H as (w4 & E & H). unfold exec in E. cbn [w_fs w_cwd] in E. injection E as <-.
  set (f4 := filter (fun e => negb (dat_file f2 P (fst e))) f2) in *.
  assert (T4 : forall y, there f4 P y <-> there f2 P y /\ is_dat y = false).
  { intros y. unfold there, f4. rewrite (look_filter_name (fun p => negb (dat_file f2 P p))) by discriminate.
    unfold dat_file. destruct (look f2 (y :: P)) as [k0|] eqn:Ek; [|cbn [negb]; tauto].
    destruct (proj2 (proj2 Ho2) [y] k0 ltac:(discriminate) Ek) as [-> _]. rewrite path_eqb_refl. destruct (is_dat y); cbn.
    - split; [congruence|intros [_ ?]; discriminate].
    - split; [intros; split; congruence|intros; congruence]. }
  apply run_ok_cons in H as (w5 & E & H). unfold exec in E. cbn [w_fs w_cwd] in E.
  destruct (look f4 (q_exe q :: P)) as [[|]|] eqn:El; try discriminate. injection E as <-.
  apply run_ok_cons in H as (w6 & E & H). injection E as <-. apply run_ok_nil in H. subst w'. cbn [w_fs].
  intros y. rewrite <- (there_writes P (q_out q) _ _ y Ew), <- and_assoc, <- T4. unfold there. destruct (string_dec y (q_exe q)) as [->|Hn].
  - rewrite look_del_same by discriminate. split; [congruence|intros [_ ?]; contradiction].
  - rewrite look_del_other by congruence. tauto.
Qed.

Definition saved (q : request) (y : string) : Prop :=
  (q_show q = true /\ q_save_fig q = true /\ In y (q_figs q)) \/ (q_save_txt q = true /\ In y (q_txts q)).

Lemma exec_save n l w w' : exists_ (w_fs w) (resolve (w_cwd w) n) = true -> exec (Save n l) w = (w', Ok tt) ->
  w_cwd w' = w_cwd w /\ forall y, there (w_fs w') (resolve (w_cwd w) n) y <-> there (w_fs w) (resolve (w_cwd w) n) y \/ In y l.
Proof.
  intros Hx E. unfold exec in E. rewrite Hx in E. cbn [bind] in E. destruct (write_files (w_fs w) (resolve (w_cwd w) n) l) as [f1|] eqn:Ew; [|discriminate].
  injection E as <-. split; [reflexivity|]. intros y. apply there_writes, Ew.
Qed.

Lemma run_saving q n fail k w w' k' base : let P := resolve (w_cwd w) n in P <> [] -> only_files_in base P (w_fs w) ->
  run_steps fail k (saving q n) w = (w', k', Ok tt) ->
  w_cwd w' = w_cwd w /\ forall y, there (w_fs w') P y <-> there (w_fs w) P y \/ saved q y.
Proof.
  intros P HP Ho H. unfold saving in H. apply run_ok_cons in H as (w1 & E & H). injection E as <-.
  apply run_ok_app in H as (w2 & k2 & H1 & H2). unfold saved.
  assert (A : (w_cwd w2 = w_cwd w /\ only_files_in base P (w_fs w2)) /\ forall y, there (w_fs w2) P y <-> there (w_fs w) P y \/ (q_show q = true /\ q_save_fig q = true /\ In y (q_figs q))).
  { destruct (q_show q).
    - apply run_ok_cons in H1 as (w3 & E & H1). apply run_ok_nil in H1. subst w3. destruct (q_save_fig q).
      + destruct (stays_exec base P (Save n (q_figs q)) w w2 (Ok tt) HP eq_refl Ho E) as (B1 & B2).
        destruct (exec_save n (q_figs q) w w2) as (C1 & C2); [unfold exists_; fold P; rewrite (proj1 (proj2 Ho)); reflexivity|exact E|].
        split; [auto|]. intros y. fold P in C2. rewrite (C2 y). tauto.
      + injection E as <-. split; [auto|]. intros y. split; [auto|intros [|(_ & ? & _)]; [auto|discriminate]].
    - apply run_ok_nil in H1. subst w2. split; [auto|]. intros y. split; [auto|intros [|(? & _)]; [auto|discriminate]]. }
  destruct A as ((A1 & A2) & A3). destruct (q_save_txt q).
  - apply run_ok_cons in H2 as (w3 & E & H2). apply run_ok_nil in H2. subst w3.
    destruct (exec_save n (q_txts q) w2 w') as (C1 & C2); [unfold exists_; rewrite A1; fold P; rewrite (proj1 (proj2 A2)); reflexivity|exact E|].
    split; [congruence|]. intros y. rewrite A1 in C2. fold P in C2. rewrite C2, A3. tauto.
  - apply run_ok_nil in H2. subst w'. split; [exact A1|]. intros y. rewrite A3. split; [tauto|intros [|[|[? _]]]; [auto|auto|discriminate]].
Qed.

Lemma main_contents q cwd n fail base w' k : let P := resolve cwd n in
  P <> [] -> only_files_in base P base -> (forall x, look base (x :: P) = None) ->
  run_steps fail 0 (before q n ++ Enter n :: inside q ++ Return cwd :: saving q n) (mkworld base cwd) = (w', k, Ok tt) ->
  w_cwd w' = cwd /\ forall y, there (w_fs w') P y <-> (In y (q_out q) /\ is_dat y = false /\ y <> q_exe q) \/ saved q y.
Proof.
  intros P HP Ho Hn H. apply run_ok_app in H as (w1 & k1 & H1 & H).
  destruct (stays_run base P fail _ _ (mkworld base cwd) _ _ _ HP (before_stays q n cwd) Ho H1) as (A1 & A2 & _). cbn [w_cwd] in A2.
  unfold before in H1. do 3 (apply run_ok_cons in H1 as (? & E & H1); injection E as <-).
  apply run_inputs in H1 as (_ & T1). cbn [w_cwd w_fs] in T1. fold P in T1.
  apply run_ok_cons in H as (w2 & E & H). unfold exec in E. rewrite A2 in E. fold P in E. rewrite (proj1 (proj2 A1)) in E. injection E as <-.
  apply run_ok_app in H as (w3 & k3 & H3 & H).
  destruct (run_inside q fail _ (mkworld (w_fs w1) P) _ _ base P eq_refl HP A1 H3) as (B1 & B2 & T3). cbn [w_fs] in T3.
  apply run_ok_cons in H as (w4 & E & H). unfold exec in E.
  destruct (look (w_fs w3) cwd) as [[|]|]; try discriminate. injection E as <-.
  destruct (run_saving q n fail _ (mkworld (w_fs w3) cwd) _ _ base HP B2 H) as (C1 & T4). cbn [w_cwd w_fs] in *. fold P in T4.
  split; [exact C1|]. intros y. rewrite T4, T3, T1. unfold there at 1. rewrite Hn.
  assert (Hin : In y (inputs q) -> is_dat y = false -> y <> q_exe q -> False).
  { unfold inputs. cbn [In]. intros [E|Hi] Hd He; [congruence|]. repeat (destruct Hi as [E|Hi]; [subst y; cbv in Hd; discriminate|]). contradiction. }
  intuition congruence.
Qed.

Lemma prune_closed cs : forall f p, closed f -> closed (prune f cs p).
Proof.
  induction cs as [|c cs IH]; intros f p Hc; [exact Hc|]. cbn [prune].
  destruct (String.eqb c "."); [exact Hc|]. destruct (String.eqb c ""); [apply IH, Hc|].
  destruct (rmdir f p) as [f'|] eqn:E; [|exact Hc].
  destruct (rmdir_ok _ _ _ E) as (Hp & Hd & Hn & ->). apply IH, del_closed; auto.
Qed.
Lemma removedirs_closed f cwd n f' : closed f -> removedirs f cwd n = Ok f' -> closed f'.
Proof.
  intros Hc H. unfold removedirs in H. destruct (rmdir f (resolve cwd n)) as [f1|] eqn:E; [|discriminate]. cbn [bind] in H. injection H as <-.
  destruct (rmdir_ok _ _ _ E) as (Hp & Hd & Hn & ->). apply prune_closed, del_closed; auto.
Qed.
