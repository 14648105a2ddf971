(** C58, C59: working directory and files of a nonlinear simulation. *)
From Coq Require Import List Bool String Arith Lia.
From Verif Require Import Base M_files P_files.
Import ListNotations.
Open Scope string_scope.
Open Scope list_scope.

(** The directory the call works in. *)
Definition simdir (w : world) (q : request) : path := resolve (w_cwd w) (chosen w q).

Lemma run_shape w q fail w' k r : closed (w_fs w) -> nonlinear_run w q fail = (w', k, r) ->
  (k = None /\ w' = w /\ exists e, r = Err e /\ mkdirs (w_fs w) (simdir w q) = Err e) \/
  exists f1 wm km rm, mkdirs (w_fs w) (simdir w q) = Ok f1 /\ simdir w q <> [] /\ only_files_in f1 (simdir w q) f1 /\
    run_steps fail 0 (before q (chosen w q) ++ Enter (chosen w q) :: inside q ++ Return (w_cwd w) :: saving q (chosen w q)) (mkworld f1 (w_cwd w)) = (wm, km, rm) /\
    only_files_in f1 (simdir w q) (w_fs wm) /\ w_cwd wm = place q (simdir w q) (w_cwd w) km /\ closed (w_fs wm) /\
    (rm = Ok tt -> returned q <= km)%nat /\
    ((k = Some km /\ w' = wm /\ r = rm /\ (removing q = false \/ rm <> Ok tt)) \/
     (removing q = true /\ rm = Ok tt /\ w_cwd wm = w_cwd w /\ w_cwd w' = w_cwd w /\
       ((exists f2, removedirs (w_fs wm) (w_cwd w) (chosen w q) = Ok f2 /\ w_fs w' = f2 /\ k = Some (S km)) \/
        (w' = wm /\ k = Some km /\ exists e, r = Err e)))).
Proof.
  intros Hc H. unfold nonlinear_run in H. fold (simdir w q) in H. destruct (mkdirs (w_fs w) (simdir w q)) as [f1|e] eqn:Em.
  2:{ injection H as <- <- <-. left. eauto. }
  right. destruct (only_start _ _ _ Hc Em) as (HP & Ho).
  destruct (mkdirs_ok _ _ _ Em) as (_ & HP1 & _ & _ & Hcl). specialize (Hcl Hc).
  rewrite program_parts in H.
  assert (Hs : before q (chosen w q) ++ Enter (chosen w q) :: inside q ++ Return (w_cwd w) :: saving q (chosen w q) ++ (if removing q then [RemoveDirs (chosen w q)] else [])
    = (before q (chosen w q) ++ Enter (chosen w q) :: inside q ++ Return (w_cwd w) :: saving q (chosen w q)) ++ (if removing q then [RemoveDirs (chosen w q)] else [])).
  { rewrite <- app_assoc. cbn [app]. rewrite <- app_assoc. reflexivity. }
  rewrite Hs, run_steps_app in H. clear Hs.
  destruct (run_steps fail 0 (before q (chosen w q) ++ Enter (chosen w q) :: inside q ++ Return (w_cwd w) :: saving q (chosen w q)) (mkworld f1 (w_cwd w))) as [[wm km] rm] eqn:Er.
  exists f1, wm, km, rm. destruct (main_run _ _ _ _ _ _ _ _ HP Ho Er) as (A & B & C). fold (simdir w q) in A, B.
  assert (Hclm := only_closed _ _ _ Hcl HP1 HP A).
  split; [reflexivity|]. split; [exact HP|]. split; [exact Ho|]. split; [exact Er|]. split; [exact A|]. split; [exact B|].
  split; [exact Hclm|]. split; [exact C|].
  destruct rm as [[]|e]; [|left; injection H as <- <- <-; repeat split; right; discriminate].
  destruct (removing q); [|left; cbn in H; injection H as <- <- <-; repeat split; left; reflexivity].
  right. specialize (C eq_refl). assert (Hcw : w_cwd wm = w_cwd w).
  { rewrite B. unfold place. destruct (Nat.ltb_spec km (returned q)); [lia|]. rewrite andb_false_r. reflexivity. }
  cbn [run_steps exec] in H. rewrite Hcw in H. split; [reflexivity|]. split; [reflexivity|]. split; [exact Hcw|].
  destruct (fail km) as [[[|] e]|]; destruct (removedirs (w_fs wm) (w_cwd w) (chosen w q)) as [f2|e2] eqn:Ed;
    injection H as <- <- <-; cbn [w_fs w_cwd]; (split; [auto|]); first [left; eexists; split; [reflexivity|]; split; reflexivity | right; eauto].
Qed.

Lemma run_closed w q fail w' k r : closed (w_fs w) -> nonlinear_run w q fail = (w', k, r) ->
  closed (w_fs w') /\ (r = Ok tt -> w_cwd w' = w_cwd w).
Proof.
  intros Hc H. destruct (run_shape _ _ _ _ _ _ Hc H) as [(-> & -> & e & -> & _)|(f1 & wm & km & rm & Em & HP & Ho & Er & A & B & Hcm & C & D)].
  { split; [exact Hc|discriminate]. }
  destruct D as [(-> & -> & -> & _)|(_ & -> & Dc & Dc' & [(f2 & Ed & Ef & _)|(-> & _)])].
  - split; [exact Hcm|]. intros E. specialize (C E). rewrite B. unfold place. destruct (Nat.ltb_spec km (returned q)); [lia|]. rewrite andb_false_r. reflexivity.
  - split; [|auto]. rewrite Ef. eapply removedirs_closed; eauto.
  - split; auto.
Qed.

(** ** C58 *)
(** Steps 0-10 prepare the input files, step 11 changes directory, 12-23 run the kernel and
    read its files, step 24 changes back. *)
Theorem C58_working_directory : forall w q fail w' k r, closed (w_fs w) -> look (w_fs w) (w_cwd w) = Some Dir ->
  nonlinear_run w q fail = (w', k, r) ->
  (r = Ok tt -> w_cwd w' = w_cwd w) /\
  (w_cwd w' = w_cwd w \/ w_cwd w' = simdir w q) /\
  (w_cwd w' <> w_cwd w <-> exists j, k = Some j /\ 12 <= j < 25)%nat.
Proof.
  intros w q fail w' k r Hc Hcwd H.
  destruct (run_shape _ _ _ _ _ _ Hc H) as [(-> & -> & e & -> & _)|(f1 & wm & km & rm & Em & HP & Ho & Er & A & B & _ & C & D)].
  { split; [discriminate|]. split; [auto|]. split; [congruence|intros (j & ? & _); discriminate]. }
  assert (Hne : simdir w q <> w_cwd w).
  { intros E. destruct (mkdirs_ok _ _ _ Em) as (F & _). rewrite E in F. congruence. }
  assert (Hlit : entered q = 12 /\ returned q = 25) by (split; reflexivity). destruct Hlit as [H12 H25]. rewrite H25 in C.
  assert (Hpl : (place q (simdir w q) (w_cwd w) km = simdir w q /\ 12 <= km < 25)%nat \/ (place q (simdir w q) (w_cwd w) km = w_cwd w /\ ~ (12 <= km < 25)%nat)).
  { unfold place. rewrite H12, H25. destruct (Nat.leb_spec 12 km), (Nat.ltb_spec km 25); cbn [andb]; try (right; split; [reflexivity|lia]). left. split; [reflexivity|lia]. }
  destruct D as [(-> & -> & -> & _)|(_ & -> & Dc & Dc' & D)].
  - rewrite B. split.
    + intros E. specialize (C E). destruct Hpl as [[-> ?]|[-> ?]]; [lia|reflexivity].
    + destruct Hpl as [[-> Hk]|[-> Hk]]; (split; [auto|]); split.
      * intros _. exists km. auto.
      * intros _. exact Hne.
      * congruence.
      * intros (j & Ej & Hj). injection Ej as <-. contradiction.
  - specialize (C eq_refl). split; [auto|]. split; [auto|]. split; [congruence|].
    intros (j & Ej & Hj). destruct D as [(f2 & _ & _ & Ek)|(_ & Ek & _)]; rewrite Ek in Ej; injection Ej as <-; lia.
Qed.

(** A call that raises between the two changes of directory leaves the process in the
    simulation directory: a second call with the same relative name then works below the first. *)
Theorem C58_stranded_by_kernel_failure : forall w q e, closed (w_fs w) -> look (w_fs w) (w_cwd w) = Some Dir ->
  look (w_fs w) (simdir w q) = None -> (forall p, under p (simdir w q) -> look (w_fs w) p <> Some File) ->
  exists w' k, nonlinear_run w q (fun i => if Nat.eqb i 13 then Some (false, e) else None) = (w', Some k, Err e) /\ w_cwd w' = simdir w q.
Proof.
  intros w q e Hc Hcwd Hn Hf. destruct (mkdirs_complete _ _ Hn Hf) as (f1 & Em).
  set (fail := fun i => if Nat.eqb i 13 then Some (false, e) else None).
  destruct (nonlinear_run w q fail) as [[w' k] r] eqn:E.
  assert (HE : exists w1, w' = w1 /\ k = Some 13 /\ r = Err e).
  2:{ destruct HE as (w1 & -> & -> & ->). exists w1, 13. split; [reflexivity|].
      destruct (C58_working_directory _ _ _ _ _ _ Hc Hcwd E) as (_ & [A|A] & B); [|exact A].
      exfalso. apply B; [exists 13; split; [reflexivity|lia]|exact A]. }
  unfold nonlinear_run in E. fold (simdir w q) in E. rewrite Em in E. rewrite program_parts in E.
  destruct (only_start _ _ _ Hc Em) as (HP & Ho). set (P := simdir w q) in *.
  assert (Hwr : forall x f, only_files_in f1 P f -> exists f', write_file f P x = Ok f' /\ only_files_in f1 P f').
  { intros x f Hof. destruct (write_file f P x) as [f'|e'] eqn:Ew; [exists f'; split; [reflexivity|eapply only_write; eauto]|].
    exfalso. unfold write_file in Ew. rewrite (proj1 (proj2 Hof)) in Ew. destruct (look f (x :: P)) as [[|]|] eqn:El; try discriminate.
    destruct (proj2 (proj2 Hof) [x] Dir ltac:(discriminate) El) as [? _]. discriminate. }
  assert (Hin : forall l k f, (k + List.length l <= 12)%nat -> only_files_in f1 P f -> exists f', 
     run_steps fail k (map (WriteIn (chosen w q)) l) (mkworld f (w_cwd w)) = (mkworld f' (w_cwd w), k + List.length l, Ok tt)%nat /\ only_files_in f1 P f').
  { induction l as [|x l IH]; intros k0 f Hk Hof; [exists f; cbn; rewrite Nat.add_0_r; auto|].
    cbn [map run_steps List.length] in *. unfold fail at 1. destruct (Nat.eqb_spec k0 13); [lia|].
    destruct (Hwr x f Hof) as (f' & Ew & Hof'). unfold exec. cbn [w_fs w_cwd]. change (resolve (w_cwd w) (chosen w q)) with P. rewrite Ew.
    destruct (IH (S k0) f' ltac:(lia) Hof') as (f2 & R & Hof2). exists f2. rewrite R. split; [|exact Hof2]. rewrite Nat.add_succ_r. reflexivity. }
  destruct (Hin (inputs q) 3 f1) as (f2 & R & Hof2); [cbn; lia|exact Ho|].
  rewrite run_steps_app in E. unfold before in E.
  assert (Rb : run_steps fail 0 (Compute :: Compute :: Compute :: map (WriteIn (chosen w q)) (inputs q)) (mkworld f1 (w_cwd w)) = (mkworld f2 (w_cwd w), 11, Ok tt)).
  { cbn [run_steps]. cbn [exec fail Nat.eqb]. rewrite R. reflexivity. }
  rewrite Rb in E. cbn [run_steps] in E. unfold fail at 1 in E. cbn [Nat.eqb] in E. unfold exec at 1 in E. cbn [w_fs w_cwd] in E.
  change (resolve (w_cwd w) (chosen w q)) with P in E. rewrite (proj1 (proj2 Hof2)) in E.
  unfold inside in E. cbn [app run_steps] in E. unfold fail at 1 in E. cbn [Nat.eqb exec] in E. unfold fail at 1 in E. cbn [Nat.eqb] in E.
  injection E as <- <- <-. eauto.
Qed.

(** ** C59 *)
Theorem C59_directory_is_fresh : forall w q fail w' k r, closed (w_fs w) -> nonlinear_run w q fail = (w', k, r) ->
  let asked := resolve (w_cwd w) (wanted q) in
  let spare := resolve (w_cwd w) (with_suffix (wanted q)) in
  (look (w_fs w) asked = None -> simdir w q = asked) /\
  (look (w_fs w) asked <> None -> simdir w q = spare) /\
  (look (w_fs w) asked <> None -> look (w_fs w) spare <> None -> w' = w /\ k = None /\ r = Err FileExistsError) /\
  (k <> None -> forall p, under (simdir w q) p -> look (w_fs w) p = None).
Proof.
  intros w q fail w' k r Hc H asked spare.
  assert (H1 : look (w_fs w) asked = None -> simdir w q = asked) by (intros E; unfold simdir, chosen, exists_; fold asked; rewrite E; reflexivity).
  assert (H2 : look (w_fs w) asked <> None -> simdir w q = spare).
  { intros E; unfold simdir, chosen, exists_; fold asked. destruct (look (w_fs w) asked); [reflexivity|congruence]. }
  split; [exact H1|]. split; [exact H2|]. split.
  - intros A B. unfold nonlinear_run in H. fold (simdir w q) in H. rewrite (H2 A) in H. rewrite mkdirs_exists in H by auto. injection H as <- <- <-. auto.
  - intros Hk p Hu. destruct (run_shape _ _ _ _ _ _ Hc H) as [(-> & _)|(f1 & wm & km & rm & Em & _)]; [congruence|].
    destruct (mkdirs_ok _ _ _ Em) as (A & _). eapply closed_fresh; eauto.
Qed.

(** The call starts working exactly when that directory can be made. *)
Theorem C59_starts_iff : forall w q fail, closed (w_fs w) ->
  let P := simdir w q in
  ((exists w' k r, nonlinear_run w q fail = (w', Some k, r)) <->
     look (w_fs w) P = None /\ forall p, under p P -> look (w_fs w) p <> Some File) /\
  (look (w_fs w) P = None -> (exists p, under p P /\ look (w_fs w) p = Some File) -> nonlinear_run w q fail = (w, None, Err OSError_)).
Proof.
  intros w q fail Hc P. unfold nonlinear_run. change (resolve (w_cwd w) (chosen w q)) with P. split; [split|].
  - intros (w' & k & r & H). destruct (mkdirs (w_fs w) P) as [f1|e] eqn:Em; [|discriminate]. destruct (mkdirs_ok _ _ _ Em) as (A & _).
    split; [exact A|]. intros p Hu Hp. rewrite (mkdirs_blocked _ _ _ Hc A Hu Hp) in Em. discriminate.
  - intros [A B]. destruct (mkdirs_complete _ _ A B) as (f1 & ->).
    match goal with |- context [run_steps ?a ?b ?c ?d] => destruct (run_steps a b c d) as [[w' k] r] end. eauto.
  - intros A (p & Hu & Hp). rewrite (mkdirs_blocked _ _ _ Hc A Hu Hp). reflexivity.
Qed.

Definition may_remove (q : request) : Prop := q_remove q = true /\ q_save_txt q = false /\ q_save_fig q = false.
Lemma removing_may q : removing q = true -> may_remove q.
Proof. unfold removing, may_remove. destruct (q_save_txt q), (q_save_fig q), (q_remove q); cbn; intros; try discriminate; auto. Qed.

Theorem C59_rest_of_disk : forall w q fail w' k r, closed (w_fs w) -> nonlinear_run w q fail = (w', k, r) ->
  let P := simdir w q in
  (forall p, look (w_fs w) p = Some File -> look (w_fs w') p = Some File) /\
  (forall p, look (w_fs w) p = Some Dir -> look (w_fs w') p = Some Dir \/
     (look (w_fs w') p = None /\ may_remove q /\ under p P /\ forall p', under p p' -> look (w_fs w) p' <> None -> under p' P)) /\
  (forall p kd, look (w_fs w) p = None -> look (w_fs w') p = Some kd ->
     (under P p /\ (p = P /\ kd = Dir \/ exists x, p = x :: P /\ kd = File)) \/ (under p P /\ kd = Dir)).
Proof.
  intros w q fail w' k r Hc H P.
  destruct (run_shape _ _ _ _ _ _ Hc H) as [(-> & -> & e & -> & _)|(f1 & wm & km & rm & Em & HP & Ho & Er & A & B & Hcm & C & D)].
  { split; [auto|]. split; [auto|]. congruence. }
  fold P in Em, HP, Ho, A. destruct (mkdirs_ok _ _ _ Em) as (M1 & M2 & M3 & M4 & M5). destruct A as (A1 & A2 & A3).
  assert (Hm : forall p kd, look (w_fs w) p = Some kd -> look (w_fs wm) p = Some kd).
  { intros p kd E. rewrite A1; [apply M3, E|]. intros Hu. rewrite (closed_fresh _ _ _ Hc M1 Hu) in E. discriminate. }
  assert (Hn : forall p kd, look (w_fs w) p = None -> look (w_fs wm) p = Some kd ->
     (under P p /\ (p = P /\ kd = Dir \/ exists x, p = x :: P /\ kd = File)) \/ (under p P /\ kd = Dir)).
  { intros p kd E1 E2. destruct (under_dec P p) as [Hu|Hu].
    - left. split; [exact Hu|]. destruct Hu as [l ->]. destruct l as [|x l]; [left; split; [reflexivity|cbn in E2; congruence]|].
      right. destruct (A3 (x :: l) kd ltac:(discriminate) E2) as [-> (y & E)]. injection E as -> ->. exists y. auto.
    - right. rewrite A1 in E2 by auto. destruct (M4 _ _ E1 E2); auto. }
  destruct D as [(-> & -> & -> & _)|(Hr & -> & Dc & Dc' & D)].
  { split; [auto|]. split; [auto|]. exact Hn. }
  destruct D as [(f2 & Ed & Ef & _)|(-> & _)].
  2:{ split; [auto|]. split; [auto|]. exact Hn. }
  destruct (removedirs_spec _ _ _ _ Hcm Ed) as (Hpr & _). change (resolve (w_cwd w) (chosen w q)) with P in Hpr. rewrite Ef.
  split; [|split].
  - intros p E. destruct (Hpr p) as [E1|(E1 & _)]; [rewrite E1; auto|]. rewrite (Hm _ _ E) in E1. discriminate.
  - intros p E. destruct (Hpr p) as [E1|(E1 & E2 & E3 & E4)]; [left; rewrite E1; auto|]. right. split; [exact E2|]. split; [apply removing_may, Hr|].
    split; [exact E3|]. intros p' Hu Hx. apply E4; [exact Hu|]. destruct (look (w_fs w) p') as [kd|] eqn:E5; [|congruence]. rewrite (Hm _ _ E5). discriminate.
  - intros p kd E1 E2. apply Hn; [exact E1|]. destruct (Hpr p) as [E3|(_ & E3 & _)]; [rewrite <- E3; exact E2|congruence].
Qed.

(** A successful call leaves in its directory exactly what was asked to be saved and the
    kernel's files that are not *.dat (its executable is removed); when the directory is to
    be removed it is gone, and the kernel left no such file. *)
Theorem C59_what_is_left : forall w q fail w' k, closed (w_fs w) -> nonlinear_run w q fail = (w', k, Ok tt) ->
  let P := simdir w q in
  let kept x := In x (q_out q) /\ is_dat x = false /\ x <> q_exe q in
  let asked x := (q_show q = true /\ q_save_fig q = true /\ In x (q_figs q)) \/ (q_save_txt q = true /\ In x (q_txts q)) in
  (~ may_remove q -> look (w_fs w') P = Some Dir /\ forall x, look (w_fs w') (x :: P) <> None <-> kept x \/ asked x) /\
  (may_remove q -> (forall p, under P p -> look (w_fs w') p = None) /\ forall x, ~ kept x).
Proof.
  intros w q fail w' k Hc H P kept asked.
  destruct (run_shape _ _ _ _ _ _ Hc H) as [(-> & -> & e & He & _)|(f1 & wm & km & rm & Em & HP & Ho & Er & A & B & Hcm & C & D)]; [discriminate|].
  assert (Hrm : rm = Ok tt) by (destruct D as [(_ & _ & <- & _)|(_ & -> & _)]; reflexivity). subst rm.
  destruct (mkdirs_ok _ _ _ Em) as (M1 & M2 & M3 & M4 & M5). fold P in Em, HP, Ho, A, M1, M2, M4.
  assert (Hnew : forall x, look f1 (x :: P) = None).
  { intros x. destruct (look f1 (x :: P)) as [kd|] eqn:E; [|reflexivity]. exfalso.
    destruct (M4 (x :: P) kd) as [_ Hu]; [eapply closed_fresh; [exact Hc|exact M1|apply under_tail]|exact E|]. destruct (not_under_tail _ _ Hu). }
  destruct (main_contents q (w_cwd w) (chosen w q) fail f1 wm km HP Ho Hnew Er) as (K1 & K2).
  change (resolve (w_cwd w) (chosen w q)) with P in K2. unfold there in K2.
  destruct D as [(-> & -> & _ & [Hr|Hr])|(Hr & _ & Dc & Dc' & D)]; [|congruence|].
  - split.
    + intros _. split; [apply A|]. intros x. rewrite K2. unfold saved, kept, asked. tauto.
    + intros (H1 & H2 & H3). exfalso. unfold removing in Hr. rewrite H1, H2, H3 in Hr. discriminate.
  - split; [intros Hn; destruct (Hn (removing_may _ Hr))|]. intros (R1 & R2 & R3).
    destruct D as [(f2 & Ed & Ef & _)|(_ & _ & e & ?)]; [|discriminate].
    destruct (removedirs_spec _ _ _ _ Hcm Ed) as (Hpr & Hg & Hch). change (resolve (w_cwd w) (chosen w q)) with P in Hpr, Hg, Hch. rewrite Ef. split.
    + intros p [l ->]. destruct (Hpr (l ++ P)) as [E|(_ & E & _)]; [|exact E]. rewrite E. destruct l as [|y l]; [cbn [app] in *; congruence|].
      destruct (look (w_fs wm) ((y :: l) ++ P)) as [kd|] eqn:E2; [|reflexivity]. destruct A as (_ & _ & A3).
      destruct (A3 (y :: l) kd ltac:(discriminate) E2) as [_ (z & Ez)]. injection Ez as -> ->. cbn [app] in E2. rewrite Hch in E2. discriminate.
    + intros x Hx. assert (Hl : look (w_fs wm) (x :: P) <> None) by (apply K2; left; exact Hx). apply Hl, Hch.
Qed.

(** ** Concrete runs *)
Definition w0 : world := mkworld [(["work"], Dir); (["data.txt"; "work"], File); (["scratch"], Dir)] ["work"].
Definition q0 (d : name) (rem : bool) (extra : list string) : request :=
  mkrequest (Some d) false false false rem "2020" "NLHH.unix" (outputs ++ extra) [] [].
Definition never : failures := fun _ => None.

Lemma w0_closed : closed (w_fs w0).
Proof.
  intros c p k H. cbn in H.
  repeat match type of H with context [path_eqb ?a ?b] => let E := fresh in destruct (path_eqb_spec a b) as [E|E]; [injection E as <- <-; reflexivity|] end.
  discriminate.
Qed.

Example C58_instance :
  nonlinear_run w0 (q0 (mkname false ["sim"]) false []) never
    = (mkworld ((["sim"; "work"], Dir) :: w_fs w0) ["work"], Some 26, Ok tt) /\
  w_cwd (fst (fst (nonlinear_run w0 (q0 (mkname false ["sim"]) false []) (fun i => if Nat.eqb i 13 then Some (false, ValueError) else None)))) = ["sim"; "work"].
Proof. split; vm_compute; reflexivity. Qed.

(** Removing the simulation directory also removes a directory that was there before, even
    the caller's own working directory, when nothing else is in it. *)
Theorem C59_existing_directory_removed_refuted :
  ~ (forall w q fail w' k r p, closed (w_fs w) -> nonlinear_run w q fail = (w', k, r) ->
       look (w_fs w) p = Some Dir -> look (w_fs w') p = Some Dir).
Proof.
  intros H. set (q := q0 (mkname true ["scratch"; "sim"]) true []).
  destruct (nonlinear_run w0 q never) as [[w' k] r] eqn:E.
  assert (Hx := H w0 q never w' k r ["scratch"] w0_closed E eq_refl).
  vm_compute in E. injection E as <- <- <-. vm_compute in Hx. discriminate.
Qed.

Theorem C59_working_directory_removed : exists w q w' k, closed (w_fs w) /\ look (w_fs w) (w_cwd w) = Some Dir /\
  nonlinear_run w q never = (w', k, Ok tt) /\ w_cwd w' = w_cwd w /\ look (w_fs w') (w_cwd w') = None.
Proof.
  exists (mkworld (w_fs w0) ["scratch"]), (q0 (mkname true ["scratch"; "sim"]) true []).
  eexists. eexists. split; [exact w0_closed|]. split; [reflexivity|]. split; [vm_compute; reflexivity|]. split; reflexivity.
Qed.

(** One more file left by the kernel and the removal fails: the results are lost. *)
Example C59_instance :
  nonlinear_run w0 (q0 (mkname false ["sim"]) true []) never = (w0, Some 27, Ok tt) /\
  snd (nonlinear_run w0 (q0 (mkname false ["sim"]) true ["fort.7"]) never) = Err OSError_ /\
  simdir w0 (q0 (mkname false [".."; "x"]) true []) = ["x"; ".."; "work"] /\
  simdir w0 (q0 (mkname true ["work"]) true []) = ["work_"].
Proof. repeat split; vm_compute; reflexivity. Qed.
