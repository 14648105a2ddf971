(** C61, C62: batches of simulations. *)
From Coq Require Import List Bool String Ascii Arith ZArith Lia.
From Verif Require Import Base M_pool M_batch P_batch M_files P_files Prop_files.
Import ListNotations.
Open Scope string_scope.
Open Scope list_scope.

(** A class and its ancestors. *)
Inductive ancestor : cls -> cls -> Prop :=
| anc_self c : ancestor c c
| anc_base c b i : ancestor b c -> ancestor (SubOf b i) c.

Lemma cls_eqb_spec a : forall c, cls_eqb a c = true <-> a = c.
Proof.
  induction a as [| | | |a IH i]; intros [| | | |c j]; cbn; split; intros H; try discriminate; try reflexivity.
  - apply andb_true_iff in H as [H1 H2]. apply IH in H1. apply Nat.eqb_eq in H2. congruence.
  - injection H as -> ->. apply andb_true_iff. split; [apply IH; reflexivity|apply Nat.eqb_refl].
Qed.
Lemma isinstance_spec a c : isinstance a c = true <-> ancestor a c.
Proof.
  induction a as [| | | |a IH i]; cbn [isinstance]; rewrite orb_true_iff, cls_eqb_spec; try (split; [intros [->|?]; [constructor|discriminate]|inversion 1; auto]).
  rewrite IH. split; [intros [<-|H]; [constructor|constructor; exact H]|]. inversion 1; auto.
Qed.

Section Props.
Context {St R : Type}.
Variable plot : R -> bool -> res unit.
Implicit Types (b : batch St R) (s : sim St R).

(** ** C61 *)
(** Which batches can be made, and which error is raised otherwise. *)
Theorem C61_constructor : forall (a : sims_arg St R),
  (forall b, batch_init a = Ok b <->
     exists s0 l, a = AList (s0 :: l) /\ b = mkbatch (s0 :: l) (s_cls s0) /\
       (ancestor (s_cls s0) Linear \/ ancestor (s_cls s0) Equiv \/ ancestor (s_cls s0) Nonlinear) /\
       forall s, In s (s0 :: l) -> ancestor (s_cls s) (s_cls s0)) /\
  (forall e, batch_init a = Err e -> (e = ValueError /\ a = AList []) \/ (e = TypeError /\ a <> AList [])).
Proof.
  intros a. unfold batch_init. destruct a as [[|s0 l]|].
  - split; [intros b; split; [discriminate|intros (s0 & l & E & _); discriminate]|]. intros e H. injection H as <-. auto.
  - set (t1 := existsb (isinstance (s_cls s0)) [Linear; Equiv; Nonlinear]).
    set (t2 := forallb (fun s => isinstance (s_cls s) (s_cls s0)) (s0 :: l)).
    assert (H1 : t1 = true <-> ancestor (s_cls s0) Linear \/ ancestor (s_cls s0) Equiv \/ ancestor (s_cls s0) Nonlinear).
    { unfold t1. cbn [existsb]. rewrite !orb_true_iff, !isinstance_spec. intuition discriminate. }
    assert (H2 : t2 = true <-> forall s, In s (s0 :: l) -> ancestor (s_cls s) (s_cls s0)).
    { unfold t2. rewrite forallb_forall. split; intros H s Hs; apply isinstance_spec, H, Hs. }
    split.
    + intros b. destruct t1; [destruct t2|]; split; intros H; try discriminate.
      * injection H as <-. exists s0, l. split; [reflexivity|]. split; [reflexivity|]. split; [apply H1; reflexivity|apply H2; reflexivity].
      * destruct H as (s1 & l1 & E & -> & _). injection E as <- <-. reflexivity.
      * destruct H as (s1 & l1 & E & _ & _ & H). injection E as <- <-. apply H2 in H. discriminate.
      * destruct H as (s1 & l1 & E & _ & H & _). injection E as <- <-. apply H1 in H. discriminate.
    + intros e H. right. split; [|discriminate]. destruct t1; [destruct t2|]; congruence.
  - split; [intros b; split; [discriminate|intros (s0 & l & E & _); discriminate]|]. intros e H. injection H as <-. right. split; [reflexivity|discriminate].
Qed.

(** Names of the directories: all as long as the number of simulations, different, and in
    alphabetical order of the simulations. *)
Theorem C61_directory_names : forall N i j base, i < N -> j < N ->
  let nd := String.length (str N) in
  String.length (dir_name i nd) = nd /\
  (i < j -> String.compare (dir_name i nd) (dir_name j nd) = Lt) /\
  (join base (dir_name i nd) = join base (dir_name j nd) -> i = j).
Proof.
  intros N i j base Hi Hj nd. destruct (dir_name_compare N i j ltac:(lia) ltac:(lia)) as (A & B). fold nd in A, B.
  split; [exact A|]. split; [intros H; rewrite B; apply Nat.compare_lt_iff, H|].
  intros H. apply join_inj in H. rewrite H in B. assert (Hr : String.compare (dir_name j nd) (dir_name j nd) = Eq).
  { destruct (dir_name_compare N j j ltac:(lia) ltac:(lia)) as (_ & Hjj). fold nd in Hjj. rewrite Hjj. apply Nat.compare_refl. }
  rewrite Hr in B. symmetry in B. apply Nat.compare_eq_iff in B. exact B.
Qed.

(** What one simulation contributes. *)
Definition fate (catch : bool) (o : res R) : res (option R) :=
  match o with Ok r => Ok (Some r) | Err ValueError => if catch then Ok None else Err ValueError | Err e => Err e end.
Definition own_options b (base : string) (i : nat) (d d' : dict) : Prop :=
  let key := if cls_eqb (b_type b) Nonlinear then "sim_dir" else "output_dir" in
  dict_get key d' = Some (VStr (join base (dir_name i (String.length (str (List.length (b_sims b))))))) /\
  forall k, k <> key -> dict_get k d' = dict_get k d.
Definition base_of (base : option string) (time : string) : string := match base with Some s => s | None => default_base time end.
Definition options_of (o : option dict) : dict := match o with Some d => d | None => [] end.
Definition shows (d : dict) : bool := match dict_get "show_fig" d with Some v => truthy v | None => false end.
(** Any way of running it that starts: serial, or with a pool whose chunks finish in some order. *)
Definition runs_ok b (parallel : bool) (n_cores : option Z) (cpus : nat) (order : list nat) : Prop :=
  parallel = false \/
  exists workers, 1 <= workers /\ (n_cores = Some (Z.of_nat workers) \/ (n_cores = None /\ cpus = workers)) /\
    let N := List.length (b_sims b) in
    schedule (List.length (chunks N (chunk_size N workers) (seq 0 N))) order.

Lemma set_dir_own b base i d : own_options b base i d (set_dir (b_type b) base i (String.length (str (List.length (b_sims b)))) d).
Proof.
  unfold own_options, set_dir. cbn zeta. rewrite dict_get_set, String.eqb_refl. split; [reflexivity|].
  intros k Hk. rewrite dict_get_set. destruct (String.eqb_spec k (if cls_eqb (b_type b) Nonlinear then "sim_dir" else "output_dir")); [contradiction|reflexivity].
Qed.

Lemma run_single_fate b i nd base catch d st s : nth_error (b_sims b) i = Some s ->
  snd (run_single b i nd base catch d st) = fate catch (snd (call s (set_dir (b_type b) base i nd d) st)).
Proof.
  intros E. unfold run_single. rewrite E. destruct (call s (set_dir (b_type b) base i nd d) st) as [st1 [r|e]]; [reflexivity|]. destruct e; destruct catch; reflexivity.
Qed.

Lemma outcomes b parallel n_cores base catch options time cpus order st d' st' r :
  stateless b -> b_sims b <> [] -> runs_ok b parallel n_cores cpus order -> parallel = false \/ shows (options_of options) = false ->
  batch_run plot b parallel n_cores base catch options time cpus order st = (d', st', r) ->
  let f i := snd (run_single b i (String.length (str (List.length (b_sims b)))) (base_of base time) catch (options_of options) st) in
  (forall rs, r = Ok rs <-> map_res f (seq 0 (List.length (b_sims b))) = Ok rs) /\
  (forall e, r = Err e -> exists i, i < List.length (b_sims b) /\ f i = Err e) /\
  (parallel = false -> r = map_res f (seq 0 (List.length (b_sims b)))).
Proof.
  intros Hst Hne Hrun Hshow H f. set (N := List.length (b_sims b)) in *. unfold batch_run in H. fold N in H.
  change (match base with Some s => s | None => default_base time end) with (base_of base time) in H.
  change (match options with Some d => d | None => [] end) with (options_of options) in H.
  destruct parallel; cbn [negb] in H.
  - destruct Hshow as [|Hshow]; [discriminate|]. unfold shows in Hshow. rewrite Hshow in H.
    destruct Hrun as [|(workers & Hw & Hn & Hsch)]; [discriminate|]. cbn zeta in Hsch. fold N in Hsch.
    assert (E : (match n_cores with Some z => if (z <? 1)%Z then None else Some (Z.to_nat z) | None => Some cpus end) = Some workers).
    { destruct Hn as [->|[-> ->]]; [|reflexivity]. destruct (Z.ltb_spec (Z.of_nat workers) 1); [lia|]. rewrite Nat2Z.id. reflexivity. }
    rewrite E in H. assert (HN : 1 <= N) by (unfold N; destruct (b_sims b); [congruence|cbn; lia]).
    assert (Hseq : List.length (seq 0 N) = N) by apply seq_length.
    destruct (pool_run_spec f (seq 0 N) (chunk_size N workers) order (chunk_size_pos _ _ HN Hw)) as (A & B); [rewrite Hseq; exact Hsch|].
    fold f in H. destruct (pool_run f (seq 0 N) (chunk_size N workers) order) as [ys|e] eqn:Ep; cbn [bind] in H; injection H as <- <- <-.
    + split; [intros rs; rewrite <- A; split; intros H; exact H|]. split; [discriminate|discriminate].
    + split; [intros rs; rewrite <- A; split; intros H; discriminate|]. split; [|discriminate].
      intros e0 He. injection He as <-. destruct (B e eq_refl) as (i & Hi & Ei). exists i. split; [apply in_seq in Hi; lia|exact Ei].
  - assert (E := serial_stateless b (String.length (str N)) (base_of base time) catch (seq 0 N) Hst (options_of options) st st).
    rewrite H in E. cbn [snd] in E. fold f in E. rewrite E. split; [reflexivity|]. split; [|reflexivity].
    intros e He. destruct (map_res_err _ _ _ He) as (i & Hi & Ei). exists i. split; [apply in_seq in Hi; lia|exact Ei].
Qed.

Lemma map_res_nth {A B} (f : A -> res B) l ys : map_res f l = Ok ys <-> (List.length ys = List.length l /\ forall i x, nth_error l i = Some x -> exists y, nth_error ys i = Some y /\ f x = Ok y).
Proof.
  revert ys. induction l as [|a l IH]; intros ys; cbn [map_res].
  - split; [intros H; injection H as <-; split; [reflexivity|intros [|i] x; discriminate]|]. intros [H _]. destruct ys; [reflexivity|discriminate].
  - destruct (f a) as [y|e] eqn:Ea; cbn [bind].
    + destruct (map_res f l) as [zs|e] eqn:El; cbn [bind].
      * split.
        -- intros H. injection H as <-. destruct (proj1 (IH zs) eq_refl) as (L & Hn). split; [cbn; congruence|].
           intros [|i] x Hx; cbn in Hx; [injection Hx as <-; exists y; auto|]. apply Hn, Hx.
        -- intros (L & Hn). destruct ys as [|y' ys]; [discriminate|]. destruct (Hn 0 a eq_refl) as (y0 & E0 & E1). cbn in E0. injection E0 as ->.
           assert (Hz : Ok zs = Ok ys) by (apply IH; split; [cbn in L; congruence|intros i x Hx; apply (Hn (S i) x Hx)]). congruence.
      * split; [discriminate|]. intros (L & Hn). destruct ys as [|y' ys]; [discriminate|]. exfalso.
        assert (Hz : Err e = Ok ys) by (apply IH; split; [cbn in L; congruence|intros i x Hx; apply (Hn (S i) x Hx)]). discriminate.
    + split; [discriminate|]. intros (L & Hn). destruct (Hn 0 a eq_refl) as (y0 & _ & E1). congruence.
Qed.

(** The i-th result is that of the i-th simulation, run with its own directory, whatever the
    mode, the number of workers, the chunking and the order in which they finish. *)
Theorem C61_results_in_order : forall b parallel n_cores base catch options time cpus order st d' st' r,
  stateless b -> b_sims b <> [] -> runs_ok b parallel n_cores cpus order -> parallel = false \/ shows (options_of options) = false ->
  batch_run plot b parallel n_cores base catch options time cpus order st = (d', st', r) ->
  exists own, (forall i, own_options b (base_of base time) i (options_of options) (own i)) /\
  (forall rs, r = Ok rs <-> List.length rs = List.length (b_sims b) /\
     forall i s, nth_error (b_sims b) i = Some s -> exists x, nth_error rs i = Some x /\ fate catch (snd (call s (own i) st)) = Ok x) /\
  (forall e, r = Err e -> exists i s, nth_error (b_sims b) i = Some s /\ fate catch (snd (call s (own i) st)) = Err e /\
     (parallel = false -> forall j sj, j < i -> nth_error (b_sims b) j = Some sj -> exists x, fate catch (snd (call sj (own j) st)) = Ok x)).
Proof.
  intros b parallel n_cores base catch options time cpus order st d' st' r Hst Hne Hrun Hshow H.
  set (nd := String.length (str (List.length (b_sims b)))).
  exists (fun i => set_dir (b_type b) (base_of base time) i nd (options_of options)).
  split; [intros i; apply set_dir_own|].
  destruct (outcomes _ _ _ _ _ _ _ _ _ _ _ _ _ Hst Hne Hrun Hshow H) as (A & B & C). fold nd in A, B, C.
  set (N := List.length (b_sims b)) in *. split.
  - intros rs. rewrite A, map_res_nth, seq_length. split; intros [L Hn]; (split; [exact L|]).
    + intros i s Hs. assert (Hi : i < N) by (apply nth_error_Some; congruence).
      destruct (Hn i i) as (y & Ey & Ef); [rewrite (nth_error_nth' _ 0) by (rewrite seq_length; lia); rewrite seq_nth by lia; reflexivity|].
      exists y. split; [exact Ey|]. rewrite <- Ef. symmetry. apply run_single_fate, Hs.
    + intros i x Hx. assert (Hi : i < N) by (rewrite <- (seq_length N 0); apply nth_error_Some; congruence).
      assert (x = i). { rewrite (nth_error_nth' _ 0) in Hx by (rewrite seq_length; lia). rewrite seq_nth in Hx by lia. injection Hx as Hx. lia. } subst x.
      destruct (nth_error (b_sims b) i) as [s|] eqn:Es; [|apply nth_error_None in Es; unfold N in Hi; lia].
      destruct (Hn i s Es) as (y & Ey & Ef). exists y. split; [exact Ey|]. rewrite <- Ef. apply run_single_fate, Es.
  - intros e He.
    assert (Hfind : exists i, i < N /\ snd (run_single b i nd (base_of base time) catch (options_of options) st) = Err e /\
       (parallel = false -> forall j, j < i -> exists x, snd (run_single b j nd (base_of base time) catch (options_of options) st) = Ok x)).
    { destruct parallel.
      - destruct (B e He) as (i & Hi & Ei). exists i. split; [exact Hi|]. split; [exact Ei|discriminate].
      - specialize (C eq_refl). rewrite C in He. clear -He.
        set (f := fun i => snd (run_single b i nd (base_of base time) catch (options_of options) st)) in *.
        assert (G : forall n k, map_res f (seq k n) = Err e -> exists i, k <= i < k + n /\ f i = Err e /\ forall j, k <= j < i -> exists x, f j = Ok x).
        { induction n as [|n IH]; intros k Hk; cbn [seq map_res] in Hk; [discriminate|].
          destruct (f k) as [y|e'] eqn:Ek; cbn [bind] in Hk.
          - destruct (map_res f (seq (S k) n)) as [|e'] eqn:Em; cbn [bind] in Hk; [discriminate|]. injection Hk as ->.
            destruct (IH _ Em) as (i & Hi & Ei & Hj). exists i. split; [lia|]. split; [exact Ei|]. intros j Hji.
            destruct (Nat.eq_dec j k) as [->|]; [eauto|apply Hj; lia].
          - injection Hk as ->. exists k. split; [lia|]. split; [exact Ek|]. intros j Hji. lia. }
        destruct (G _ _ He) as (i & Hi & Ei & Hj). exists i. split; [lia|]. split; [exact Ei|]. intros _ j Hji. apply Hj. lia. }
    destruct Hfind as (i & Hi & Ei & Hj). destruct (nth_error (b_sims b) i) as [s|] eqn:Es; [|apply nth_error_None in Es; unfold N in Hi; lia].
    exists i, s. split; [exact Es|]. split; [rewrite <- Ei; symmetry; apply run_single_fate, Es|].
    intros Hp j sj Hji Hs. destruct (Hj Hp j Hji) as (x & Ex). exists x. rewrite <- Ex. symmetry. apply run_single_fate, Hs.
Qed.

(** Serial and parallel runs agree: same results; when one raises so does the other. *)
Theorem C61_serial_parallel_agree : forall b n_cores base catch options time cpus order cpus2 order2 n2 st,
  stateless b -> b_sims b <> [] -> runs_ok b true n_cores cpus order -> shows (options_of options) = false ->
  forall rs, snd (batch_run plot b true n_cores base catch options time cpus order st) = Ok rs <->
             snd (batch_run plot b false n2 base catch options time cpus2 order2 st) = Ok rs.
Proof.
  intros b n_cores base catch options time cpus order cpus2 order2 n2 st Hst Hne Hrun Hshow rs.
  destruct (batch_run plot b true n_cores base catch options time cpus order st) as [[d1 s1] r1] eqn:E1.
  destruct (batch_run plot b false n2 base catch options time cpus2 order2 st) as [[d2 s2] r2] eqn:E2. cbn [snd].
  destruct (outcomes _ _ _ _ _ _ _ _ _ _ _ _ _ Hst Hne Hrun (or_intror Hshow) E1) as (A1 & _).
  destruct (outcomes _ _ _ _ _ _ _ _ _ _ _ _ _ Hst Hne (or_introl eq_refl) (or_introl eq_refl) E2) as (A2 & _).
  rewrite A1, A2. reflexivity.
Qed.

(** A batch made of a subclass of Nonlinear_Simulation cannot run. *)
Theorem C61_nonlinear_subclass_rejected : forall s0 l i parallel n_cores base catch options time cpus order st d' st' r b,
  s_cls s0 = SubOf Nonlinear i -> batch_init (AList (s0 :: l)) = Ok b -> stateless b ->
  runs_ok b parallel n_cores cpus order -> parallel = false \/ shows (options_of options) = false ->
  batch_run plot b parallel n_cores base catch options time cpus order st = (d', st', r) -> r = Err TypeError.
Proof.
  intros s0 l i parallel n_cores base catch options time cpus order st d' st' r b Hc Hb Hst Hrun Hshow H.
  apply C61_constructor in Hb as (s1 & l1 & E & -> & _ & Hall). injection E as <- <-.
  assert (Hty : forall s own, In s (s0 :: l) -> own_options (mkbatch (s0 :: l) (s_cls s0)) (base_of base time) 0 (options_of options) own \/ dict_get "output_dir" own <> None -> fate catch (snd (call s own st)) = Err TypeError).
  { intros s own Hs Hown. assert (Hget : dict_get "output_dir" own <> None).
    { destruct Hown as [[A _]|A]; [|exact A]. cbn [b_type] in A. rewrite Hc in A. cbn in A. rewrite A. discriminate. }
    unfold call. destruct (forallb _ own) eqn:Ef; [|reflexivity]. exfalso. apply Hget.
    assert (Hp : run_params (s_cls s) = run_params Nonlinear).
    { assert (Ha : ancestor (s_cls s) (SubOf Nonlinear i)) by (rewrite <- Hc; apply Hall, Hs). clear -Ha.
      remember (SubOf Nonlinear i) as c. induction Ha; [subst; reflexivity|]. cbn. auto. }
    rewrite Hp in Ef. rewrite forallb_forall in Ef. clear -Ef. induction own as [|[k v] own IH]; [reflexivity|]. cbn [dict_get].
    destruct (String.eqb_spec "output_dir" k) as [<-|Hn].
    - assert (F := Ef _ (or_introl eq_refl)). cbn in F. discriminate.
    - apply IH. intros x Hx. apply Ef. right. exact Hx. }
  destruct (C61_results_in_order _ _ _ _ _ _ _ _ _ _ _ _ _ Hst ltac:(discriminate) Hrun Hshow H) as (own & Ho & A & B).
  assert (Hown : forall j, dict_get "output_dir" (own j) <> None).
  { intros j. destruct (Ho j) as [G _]. cbn [b_type] in G. rewrite Hc in G. cbn in G. rewrite G. discriminate. }
  destruct r as [rs|e].
  - destruct (proj1 (A rs) eq_refl) as (_ & Hn). destruct (Hn 0 s0 eq_refl) as (x & _ & Ex).
    rewrite Hty in Ex; [discriminate|left; reflexivity|right; apply Hown].
  - destruct (B e eq_refl) as (j & s & Es & Ef & _). rewrite Hty in Ef; [congruence|eapply nth_error_In; exact Es|right; apply Hown].
Qed.

(** ** C62 *)
Theorem C62_serial_changes_callers_options : forall b n_cores base catch options time cpus order st d' st' r,
  b_sims b <> [] -> batch_run plot b false n_cores base catch options time cpus order st = (d', st', r) ->
  exists i, i < List.length (b_sims b) /\ own_options b (base_of base time) i (options_of options) d' /\
    (forall rs, r = Ok rs -> S i = List.length (b_sims b)) /\
    (forall e, r = Err e -> exists s st0, nth_error (b_sims b) i = Some s /\ fate catch (snd (call s d' st0)) = Err e).
Proof.
  intros b n_cores base catch options time cpus order st d' st' r Hne H. unfold batch_run in H. cbn [negb] in H.
  set (N := List.length (b_sims b)) in *.
  change (match base with Some s => s | None => default_base time end) with (base_of base time) in H.
  change (match options with Some d => d | None => [] end) with (options_of options) in H.
  assert (E := serial_dict _ _ _ _ _ _ _ _ _ _ H). destruct (seq 0 N) as [|x l] eqn:Es.
  { exfalso. apply (f_equal (@List.length _)) in Es. rewrite seq_length in Es. unfold N in Es. destruct (b_sims b); [congruence|discriminate]. }
  destruct E as (i & Hi & -> & H1 & H2). rewrite <- Es in Hi, H1. apply in_seq in Hi. exists i. split; [lia|]. split; [apply set_dir_own|]. split.
  - intros rs Hr. rewrite (H1 rs Hr). destruct N as [|n]; [discriminate|]. rewrite seq_S, last_last. reflexivity.
  - intros e He. destruct (H2 e He) as (st0 & Hst0). destruct (nth_error (b_sims b) i) as [s|] eqn:En; [|apply nth_error_None in En; unfold N in Hi; lia].
    exists s, st0. split; [reflexivity|]. rewrite <- Hst0. symmetry. apply run_single_fate, En.
Qed.

Theorem C62_parallel_keeps_callers_options : forall b n_cores base catch options time cpus order st d' st' r,
  batch_run plot b true n_cores base catch options time cpus order st = (d', st', r) -> d' = options_of options /\ st' = st.
Proof.
  intros b n_cores base catch options time cpus order st d' st' r H. unfold batch_run in H. cbn [negb] in H.
  destruct (match n_cores with Some z => if (z <? 1)%Z then None else Some (Z.to_nat z) | None => Some cpus end); injection H as <- <- <-; split; reflexivity.
Qed.

(** With figures on, a parallel run loses all its results when a simulation was caught failing. *)
Theorem C62_figures_of_failed_simulation : forall b n_cores base catch options time cpus order st rs,
  (forall r save, plot r save = Ok tt) -> shows (options_of options) = true ->
  stateless b -> b_sims b <> [] -> runs_ok b true n_cores cpus order ->
  map_res (fun i => snd (run_single b i (String.length (str (List.length (b_sims b)))) (base_of base time) catch (options_of options) st)) (seq 0 (List.length (b_sims b))) = Ok rs ->
  snd (batch_run plot b true n_cores base catch options time cpus order st) = if existsb (fun o => match o with None => true | Some _ => false end) rs then Err AttributeError else Ok rs.
Proof.
  intros b n_cores base catch options time cpus order st rs Hplot Hshow Hst Hne Hrun Hm.
  destruct Hrun as [|(workers & Hw & Hn & Hsch)]; [discriminate|]. unfold batch_run. cbn [negb]. set (N := List.length (b_sims b)) in *. cbn zeta in Hsch.
  assert (E : (match n_cores with Some z => if (z <? 1)%Z then None else Some (Z.to_nat z) | None => Some cpus end) = Some workers).
  { destruct Hn as [->|[-> ->]]; [|reflexivity]. destruct (Z.ltb_spec (Z.of_nat workers) 1); [lia|]. rewrite Nat2Z.id. reflexivity. }
  rewrite E. cbn [snd].
  change (match base with Some s => s | None => default_base time end) with (base_of base time).
  change (match options with Some d => d | None => [] end) with (options_of options).
  assert (HN : 1 <= N) by (unfold N; destruct (b_sims b); [congruence|cbn; lia]).
  destruct (pool_run_spec (fun i => snd (run_single b i (String.length (str N)) (base_of base time) catch (options_of options) st)) (seq 0 N) (chunk_size N workers) order (chunk_size_pos _ _ HN Hw)) as (A & _); [rewrite seq_length; exact Hsch|].
  apply A in Hm. rewrite Hm. cbn [bind]. unfold shows in Hshow. rewrite Hshow. set (sv := match dict_get "save_fig" (options_of options) with Some v => truthy v | None => false end).
  assert (G : forall l, plot_all plot sv l = if existsb (fun o => match o with None => true | Some _ => false end) l then Err AttributeError else Ok tt).
  { induction l as [|[r|] l IH]; [reflexivity| |reflexivity]. cbn [plot_all existsb orb]. rewrite Hplot. exact IH. }
  rewrite G. destruct (existsb _ rs); reflexivity.
Qed.
End Props.

(** ** Nonlinear batches and the working directory *)
(** A nonlinear simulation as an element of a batch. *)
Definition with_dir (q : request) (n : name) : request :=
  mkrequest (Some n) (q_show q) (q_save_fig q) (q_save_txt q) (q_remove q) (q_time q) (q_exe q) (q_out q) (q_figs q) (q_txts q).
Definition nonlinear_sim (q : request) (fail : failures) : sim world unit :=
  mksim Nonlinear (fun d w => match dict_get "sim_dir" d with
    | Some (VStr s) => let '(w', _, r) := nonlinear_run w (with_dir q (name_of s)) fail in (w', r)
    | _ => (w, Err TypeError) end).

(** When every simulation of a serial batch succeeds, each one ran with the working directory of
    the caller, hence directly below the base directory. *)
Theorem C61_nonlinear_directories : forall (qs : list (request * failures)) base catch d w d' w' rs,
  let b := mkbatch (map (fun x => nonlinear_sim (fst x) (snd x)) qs) Nonlinear in
  let N := List.length qs in let nd := String.length (str N) in
  closed (w_fs w) -> serial b nd base catch (seq 0 N) d w = (d', w', Ok rs) -> ~ In None rs ->
  w_cwd w' = w_cwd w /\ exists bf, bf N = w' /\ bf 0 = w /\ forall i q fail, nth_error qs i = Some (q, fail) ->
    let q' := with_dir q (name_of (join base (dir_name i nd))) in
    w_cwd (bf i) = w_cwd w /\ closed (w_fs (bf i)) /\ exists k, nonlinear_run (bf i) q' fail = (bf (S i), k, Ok tt).
Proof.
  intros qs base catch d w d' w' rs b N nd Hc H Hn. destruct (serial_chain _ _ _ _ _ _ _ _ _ _ H) as (Hch & _). clear H.
  assert (G : forall is_ w0 w1 rs, chain b nd base d is_ w0 w1 rs -> closed (w_fs w0) -> ~ In None rs ->
     w_cwd w1 = w_cwd w0 /\ exists bf, bf (List.length is_) = w1 /\ bf 0 = w0 /\ forall j i q fail, nth_error is_ j = Some i -> nth_error qs i = Some (q, fail) ->
       w_cwd (bf j) = w_cwd w0 /\ closed (w_fs (bf j)) /\ exists k, nonlinear_run (bf j) (with_dir q (name_of (join base (dir_name i nd)))) fail = (bf (S j), k, Ok tt)).
  { clear. intros is_ w0 w1 rs Hch. induction Hch as [st|i is_ s st st1 st2 r rs Hs Hcall Hch IH|i is_ s st st1 st2 rs Hs Hcall Hch IH]; intros Hc Hn.
    - split; [reflexivity|]. exists (fun _ => st). split; [reflexivity|]. split; [reflexivity|]. intros [|j] i q fail Hj; discriminate.
    - cbn [b b_sims] in Hs. rewrite nth_error_map in Hs. destruct (nth_error qs i) as [[q fail]|] eqn:Eq; [|discriminate]. cbn in Hs. injection Hs as <-.
      unfold call in Hcall. destruct (forallb _ _); [|discriminate]. cbn [nonlinear_sim s_run] in Hcall.
      unfold set_dir in Hcall. cbn [b b_type cls_eqb] in Hcall. rewrite dict_get_set, String.eqb_refl in Hcall.
      destruct (nonlinear_run st (with_dir q (name_of (join base (dir_name i nd)))) fail) as [[w2 k] r2] eqn:Er. injection Hcall as -> ->. destruct r.
      destruct (run_closed _ _ _ _ _ _ Hc Er) as (Hc1 & Hcw). specialize (Hcw eq_refl).
      destruct (IH Hc1) as (I1 & bf & I2 & I3 & I4); [intros Hin; apply Hn; right; exact Hin|].
      split; [congruence|]. exists (fun n => match n with O => st | S m => bf m end). split; [exact I2|]. split; [reflexivity|].
      intros [|j] i' q' fail' Hj Hq'.
      + cbn in Hj. injection Hj as <-. rewrite Eq in Hq'. injection Hq' as <- <-. split; [reflexivity|]. split; [exact Hc|]. exists k. rewrite I3. exact Er.
      + destruct (I4 j i' q' fail' Hj Hq') as (J1 & J2 & J3). split; [congruence|]. split; assumption.
    - exfalso. apply Hn. left. reflexivity. }
  destruct (G _ _ _ _ Hch Hc Hn) as (A & bf & B1 & B2 & B3). rewrite seq_length in B1. split; [exact A|]. exists bf. split; [exact B1|]. split; [exact B2|].
  intros i q fail Hq. assert (Hi : i < N) by (apply nth_error_Some; congruence).
  apply (B3 i i q fail); [rewrite (nth_error_nth' _ 0) by (rewrite seq_length; lia); rewrite seq_nth by lia; reflexivity|exact Hq].
Qed.

(** After a caught failure inside the kernel that is false: with a relative base directory the
    next simulation makes its directory inside the one of the failed simulation. *)
Definition breaks_at_read : failures := fun i => if Nat.eqb i 14 then Some (false, ValueError) else None.
Definition two_sims : batch world unit :=
  let q := q0 (mkname false []) false [] in mkbatch [nonlinear_sim q breaks_at_read; nonlinear_sim q never] Nonlinear.
Theorem C61_nested_after_failure : exists d' w',
  batch_run (fun _ _ => Ok tt) two_sims false None (Some "out") true None "" 1 [] w0 = (d', w', Ok [None; Some tt]) /\ look (w_fs w') ["1"; "out"; "work"] = None /\ look (w_fs w') ["1"; "out"; "0"; "out"; "work"] = Some Dir /\ w_cwd w' = ["0"; "out"; "work"].
Proof. eexists. eexists. split; [vm_compute; reflexivity|]. repeat split; vm_compute; reflexivity. Qed.

(** ** Concrete cases *)
Definition toy (n : nat) (o : res nat) : sim unit nat := mksim Linear (fun d st => (st, match dict_get "output_dir" d with Some _ => o | None => Err KeyError end)).
Definition toys : batch unit nat := mkbatch (map (fun i => toy i (if Nat.eqb i 3 then Err ValueError else Ok (10 * i))) (seq 0 12)) Linear.

Example C61_instance :
  stateless toys /\ runs_ok toys true (Some 2%Z) 4 [4; 0; 3; 1; 2; 5] /\ snd (batch_run (fun _ _ => Ok tt) toys true (Some 2%Z) (Some "b/") true (Some [("show_fig", VBool false)]) "" 4 [4; 0; 3; 1; 2; 5] tt)
    = Ok [Some 0; Some 10; Some 20; None; Some 40; Some 50; Some 60; Some 70; Some 80; Some 90; Some 100; Some 110] /\ snd (batch_run (fun _ _ => Ok tt) toys true (Some 2%Z) (Some "b/") false None "" 4 [4; 0; 3; 1; 2; 5] tt) = Err ValueError /\ join "b/" (dir_name 3 (String.length (str 12))) = "b/03" /\ batch_init (AList [toy 0 (Ok 1); mksim (SubOf Linear 1) (s_run (toy 0 (Ok 1)))]) <> Err TypeError /\ batch_init (AList [mksim (SubOf Linear 1) (s_run (toy 0 (Ok 1))); toy 0 (Ok 1)]) = Err TypeError.
Proof.
  split; [intros s Hs d st st'; apply in_map_iff in Hs as (i & <- & _); reflexivity|]. split.
  { right. exists 2. split; [lia|]. split; [left; reflexivity|]. cbn zeta. vm_compute List.length. split.
    - repeat constructor; cbn; intuition lia.
    - intros i. cbn. lia. }
  split; [vm_compute; reflexivity|]. split; [vm_compute; reflexivity|]. split; [vm_compute; reflexivity|]. split; [discriminate|reflexivity].
Qed.

Example C62_instance :
  batch_run (fun _ _ => Ok tt) toys false None (Some "b") true (Some [("verbose", VBool true); ("output_dir", VStr "mine")]) "" 4 [] tt
   = ([("verbose", VBool true); ("output_dir", VStr "b/11")], tt, snd (batch_run (fun _ _ => Ok tt) toys false None (Some "b") true None "" 4 [] tt)) /\ fst (fst (batch_run (fun _ _ => Ok tt) toys false None (Some "b") false None "" 4 [] tt)) = [("output_dir", VStr "b/03")] /\ snd (batch_run (fun _ _ => Ok tt) toys true (Some 2%Z) (Some "b/") true (Some [("show_fig", VBool true)]) "" 4 [4; 0; 3; 1; 2; 5] tt) = Err AttributeError.
Proof. repeat split; vm_compute; reflexivity. Qed.
