(** Lemmas about the batch model. *)
From Coq Require Import List Bool String Ascii Arith ZArith Lia.
From Verif Require Import Base M_pool P_spectra M_batch.
Import ListNotations.
Open Scope string_scope.
Open Scope list_scope.

(** ** Decimal numbers *)
Fixpoint low_value (l : list nat) : nat := match l with [] => 0 | d :: l' => d + 10 * low_value l' end.
(** The number denoted by digits, most significant first. *)
Fixpoint number (l : list nat) : nat := match l with [] => 0 | d :: l' => d * 10 ^ List.length l' + number l' end.

Lemma number_snoc l d : number (l ++ [d]) = 10 * number l + d.
Proof.
  induction l as [|e l IH]; [cbn; lia|]. cbn [app number]. rewrite IH, app_length, Nat.pow_add_r. cbn [List.length]. rewrite Nat.pow_1_r. ring.
Qed.
Lemma number_rev l : number (rev l) = low_value l.
Proof. induction l as [|d l IH]; [reflexivity|]. cbn [rev low_value]. rewrite number_snoc, IH. lia. Qed.

Lemma digits_low_spec fuel : forall n, n < fuel ->
  low_value (digits_low fuel n) = n /\ Forall (fun d => d < 10) (digits_low fuel n) /\
  n < 10 ^ List.length (digits_low fuel n) /\ (List.length (digits_low fuel n) = 1 \/ (1 <= List.length (digits_low fuel n) /\ 10 ^ (List.length (digits_low fuel n) - 1) <= n)).
Proof.
  induction fuel as [|fuel IH]; intros n Hn; [lia|]. cbn [digits_low]. destruct (Nat.ltb_spec n 10) as [H|H].
  - cbn. repeat split; auto; lia.
  - assert (Hd : n / 10 < fuel) by (assert (n / 10 < n) by (apply Nat.div_lt; lia); lia).
    destruct (IH _ Hd) as (A & B & C & D). assert (E := Nat.div_mod n 10 ltac:(lia)). assert (F := Nat.mod_upper_bound n 10 ltac:(lia)).
    cbn [low_value List.length]. rewrite A. set (L := List.length (digits_low fuel (n / 10))) in *. clearbody L.
    split; [lia|]. split; [constructor; [exact F|exact B]|]. rewrite Nat.pow_succ_r'. split; [lia|]. right. split; [lia|].
    replace (S L - 1) with L by lia. destruct D as [->|[D1 D2]]; [cbn; lia|].
    destruct L as [|L]; [lia|]. replace (S L - 1) with L in D2 by lia. rewrite Nat.pow_succ_r'. lia.
Qed.

Lemma digits_spec n : number (digits n) = n /\ Forall (fun d => d < 10) (digits n) /\ n < 10 ^ List.length (digits n) /\
  1 <= List.length (digits n) /\ (List.length (digits n) = 1 \/ 10 ^ (List.length (digits n) - 1) <= n).
Proof.
  unfold digits. destruct (digits_low_spec (S n) n ltac:(lia)) as (A & B & C & D). rewrite number_rev, rev_length.
  split; [exact A|]. split; [apply Forall_rev, B|]. split; [exact C|]. destruct D as [->|[D1 D2]]; auto.
Qed.

Lemma digits_length_mono i n : i <= n -> List.length (digits i) <= List.length (digits n).
Proof.
  intros H. destruct (digits_spec i) as (_ & _ & _ & A & [B|B]); destruct (digits_spec n) as (_ & _ & C & D & _); [lia|].
  destruct (le_lt_dec (List.length (digits i)) (List.length (digits n))) as [|Hl]; [assumption|].
  assert (10 ^ List.length (digits n) <= 10 ^ (List.length (digits i) - 1)) by (apply Nat.pow_le_mono_r; lia). lia.
Qed.

Lemma text_length l : String.length (text l) = List.length l.
Proof. unfold text. induction l as [|d l IH]; [reflexivity|]. cbn. f_equal. exact IH. Qed.
Lemma text_app l m : text (l ++ m) = append (text l) (text m).
Proof. unfold text. induction l as [|d l IH]; [reflexivity|]. cbn. f_equal. exact IH. Qed.
Lemma repeat_text n : repeat_char "0"%char n = text (repeat 0 n).
Proof. induction n as [|n IH]; [reflexivity|]. cbn. f_equal. exact IH. Qed.

Lemma number_bound l : Forall (fun d => d < 10) l -> number l < 10 ^ List.length l.
Proof.
  induction 1 as [|d l Hd Hl IH]; [cbn; lia|]. cbn [number List.length]. rewrite Nat.pow_succ_r'. set (p := 10 ^ List.length l) in *.
  assert (d * p <= 9 * p) by (apply Nat.mul_le_mono_r; lia). lia.
Qed.

Lemma digit_compare d e : d < 10 -> e < 10 -> Ascii.compare (digit_char d) (digit_char e) = Nat.compare d e.
Proof.
  intros Hd He. do 10 (destruct d as [|d]; [do 10 (destruct e as [|e]; [reflexivity|]); lia|]). lia.
Qed.

Lemma text_order l : forall m, Forall (fun d => d < 10) l -> Forall (fun d => d < 10) m -> List.length l = List.length m ->
  String.compare (text l) (text m) = Nat.compare (number l) (number m).
Proof.
  induction l as [|d l IH]; intros [|e m] Hl Hm Hlen; try discriminate; [reflexivity|].
  inversion Hl; inversion Hm; subst. injection Hlen as Hlen. cbn [text map string_of_list_ascii String.compare].
  change (string_of_list_ascii (map digit_char l)) with (text l). change (string_of_list_ascii (map digit_char m)) with (text m).
  change (text (d :: l)) with (String (digit_char d) (text l)). change (text (e :: m)) with (String (digit_char e) (text m)). cbn [String.compare].
  rewrite digit_compare by auto. cbn [number]. rewrite <- Hlen.
  assert (Bl := number_bound l H2). assert (Bm := number_bound m H6). rewrite <- Hlen in Bm. set (p := 10 ^ List.length l) in *. clearbody p.
  destruct (Nat.compare_spec d e) as [->|Hc|Hc].
  - rewrite (IH m) by auto. destruct (Nat.compare_spec (number l) (number m)); symmetry; [apply Nat.compare_eq_iff|apply Nat.compare_lt_iff|apply Nat.compare_gt_iff]; lia.
  - symmetry. apply Nat.compare_lt_iff. assert (S d * p <= e * p) by (apply Nat.mul_le_mono_r; lia). lia.
  - symmetry. apply Nat.compare_gt_iff. assert (S e * p <= d * p) by (apply Nat.mul_le_mono_r; lia). lia.
Qed.

Lemma number_zeros n l : number (repeat 0 n ++ l) = number l.
Proof. induction n as [|n IH]; [reflexivity|]. cbn [repeat app number]. rewrite IH. lia. Qed.

Lemma rjust_text w i : rjust w (str i) = text (repeat 0 (w - List.length (digits i)) ++ digits i).
Proof. unfold rjust, str. rewrite text_length, repeat_text, text_app. reflexivity. Qed.

Lemma padded_spec w i : let l := repeat 0 (w - List.length (digits i)) ++ digits i in
  number l = i /\ Forall (fun d => d < 10) l /\ List.length l = Nat.max w (List.length (digits i)).
Proof.
  cbn zeta. destruct (digits_spec i) as (A & B & _). split; [rewrite number_zeros; exact A|]. split.
  - apply Forall_app. split; [|exact B]. induction (w - List.length (digits i)); cbn; constructor; auto; lia.
  - rewrite app_length, repeat_length. lia.
Qed.

Lemma dir_name_compare n i j : i <= n -> j <= n ->
  let nd := String.length (str n) in
  String.length (dir_name i nd) = nd /\ String.compare (dir_name i nd) (dir_name j nd) = Nat.compare i j.
Proof.
  intros Hi Hj nd. assert (Hnd : nd = List.length (digits n)) by apply text_length.
  unfold dir_name. rewrite !rjust_text. destruct (padded_spec nd i) as (A & B & C). destruct (padded_spec nd j) as (A' & B' & C').
  assert (Li := digits_length_mono i n Hi). assert (Lj := digits_length_mono j n Hj).
  split; [rewrite text_length, C; lia|]. rewrite text_order by (auto; lia). congruence.
Qed.

Lemma append_inj a b c : append a b = append a c -> b = c.
Proof. induction a as [|x a IH]; cbn; [auto|]. intros H. injection H as H. auto. Qed.
Lemma join_inj a b c : join a b = join a c -> b = c.
Proof.
  unfold join. destruct (last_char a) as [x|]; [|auto]. destruct (Ascii.eqb x "/"); intros H; apply append_inj in H; [exact H|].
  apply append_inj in H. exact H.
Qed.

(** ** Dictionaries *)
Lemma dict_set_set k v v' d : dict_set k v (dict_set k v' d) = dict_set k v d.
Proof.
  induction d as [|[k0 v0] d IH]; cbn [dict_set]; [rewrite String.eqb_refl; reflexivity|].
  destruct (String.eqb_spec k k0) as [->|Hn]; cbn [dict_set]; [rewrite String.eqb_refl; reflexivity|].
  destruct (String.eqb_spec k k0); [contradiction|]. rewrite IH. reflexivity.
Qed.
Lemma dict_get_set k v d k' : dict_get k' (dict_set k v d) = if String.eqb k' k then Some v else dict_get k' d.
Proof.
  induction d as [|[k0 v0] d IH]; cbn [dict_set dict_get].
  - destruct (String.eqb k' k); reflexivity.
  - destruct (String.eqb_spec k k0) as [->|Hn]; cbn [dict_get]; [destruct (String.eqb k' k0); reflexivity|].
    destruct (String.eqb_spec k' k0) as [->|Hn']; [destruct (String.eqb_spec k0 k); [congruence|reflexivity]|exact IH].
Qed.
Lemma set_dir_set t base i j nd d : set_dir t base i nd (set_dir t base j nd d) = set_dir t base i nd d.
Proof. apply dict_set_set. Qed.

(** ** The pool *)
Lemma chunks_concat {A} c (l : list A) : 1 <= c -> forall fuel, List.length l <= fuel -> List.concat (chunks fuel c l) = l.
Proof.
  intros Hc fuel. revert l. induction fuel as [|fuel IH]; intros [|x l] H; cbn [chunks]; try reflexivity; [cbn in H; lia|].
  cbn [List.concat]. rewrite IH; [apply firstn_skipn|]. rewrite skipn_length. cbn [List.length] in *. lia.
Qed.

Lemma map_res_app {A B} (f : A -> res B) l m : map_res f (l ++ m) = let! a := map_res f l in let! b := map_res f m in Ok (a ++ b).
Proof.
  induction l as [|x l IH]; cbn [map_res app bind]; [destruct (map_res f m); reflexivity|].
  destruct (f x); [|reflexivity]. cbn [bind]. rewrite IH. destruct (map_res f l); [|reflexivity]. cbn [bind]. destruct (map_res f m); reflexivity.
Qed.

Lemma map_res_err {A B} (f : A -> res B) l e : map_res f l = Err e -> exists x, In x l /\ f x = Err e.
Proof.
  induction l as [|x l IH]; cbn [map_res]; [discriminate|]. destruct (f x) as [y|e'] eqn:E; cbn [bind]; [|intros H; injection H as ->; exists x; cbn; auto].
  destruct (map_res f l) as [ys|e'']; cbn [bind]; [discriminate|]. intros H. injection H as ->. destruct (IH eq_refl) as (z & Hz & Ez). exists z. cbn. auto.
Qed.

Lemma all_chunks {A B} (f : A -> res B) (ll : list (list A)) : (forall l, In l ll -> exists ys, map_res f l = Ok ys) ->
  map_res f (List.concat ll) = Ok (List.concat (map (fun o => match o with Some (Ok l) => l | _ => [] end) (map (fun x => Some (map_res f x)) ll))).
Proof.
  induction ll as [|l ll IH]; intros H; [reflexivity|]. cbn [List.concat map]. rewrite map_res_app. destruct (H l (or_introl eq_refl)) as (ys & ->).
  cbn [bind]. rewrite IH by (intros; apply H; right; assumption). reflexivity.
Qed.

Lemma in_concat_map {A B} (f : A -> res B) (ll : list (list A)) l e : In l ll -> map_res f l = Err e -> exists e', map_res f (List.concat ll) = Err e'.
Proof.
  intros Hin He. destruct (map_res f (List.concat ll)) as [ys|e'] eqn:E; [|eauto]. exfalso.
  destruct (map_res_err f l e He) as (x & Hx & Ex).
  assert (Hxc : In x (List.concat ll)) by (apply in_concat; eauto). clear -E Hxc Ex. revert ys E.
  induction (List.concat ll) as [|y m IH]; intros ys E; [contradiction|]. cbn [map_res] in E.
  destruct (f y) as [z|] eqn:Ey; [|discriminate]. cbn [bind] in E. destruct (map_res f m) as [zs|] eqn:Em; [|discriminate].
  destruct Hxc as [->|Hxc]; [congruence|]. eapply IH; eauto.
Qed.

Lemma pool_run_spec {A B} (f : A -> res B) tasks c order : 1 <= c ->
  schedule (List.length (chunks (List.length tasks) c tasks)) order ->
  (forall ys, pool_run f tasks c order = Ok ys <-> map_res f tasks = Ok ys) /\
  (forall e, pool_run f tasks c order = Err e -> exists x, In x tasks /\ f x = Err e).
Proof.
  intros Hc Hs. unfold pool_run. rewrite (pool_map_serial (map_res f) _ order Hs).
  assert (Hcat := chunks_concat c tasks Hc (List.length tasks) (le_n _)). set (ll := chunks (List.length tasks) c tasks) in *.
  unfold first_failure.
  destruct (find _ order) as [i|] eqn:Ef.
  - apply find_some in Ef as [Hin Hi]. destruct (nth_error (map (fun x => Some (map_res f x)) ll) i) as [[[ys|e]|]|] eqn:En; try discriminate.
    rewrite nth_error_map in En. destruct (nth_error ll i) as [l|] eqn:El; [|discriminate]. cbn in En. injection En as En.
    apply nth_error_In in El. destruct (in_concat_map f ll l e El En) as (e' & E'). rewrite Hcat in E'.
    split; [intros ys; rewrite E'; split; discriminate|]. intros e0 H0. injection H0 as <-.
    destruct (map_res_err f l e En) as (x & Hx & Ex). exists x. split; [|exact Ex]. rewrite <- Hcat. apply in_concat. eauto.
  - assert (Hall : forall l, In l ll -> exists ys, map_res f l = Ok ys).
    { intros l Hl. apply In_nth_error in Hl as (i & Hi). assert (Hlt : i < List.length ll) by (apply nth_error_Some; congruence).
      apply Hs in Hlt. apply (find_none _ _ Ef) in Hlt. rewrite nth_error_map, Hi in Hlt. cbn in Hlt. destruct (map_res f l); [eauto|discriminate]. }
    assert (E := all_chunks f ll Hall). rewrite Hcat in E. rewrite E. split; [intros ys; split; intros H; exact H|discriminate].
Qed.

Lemma chunk_size_pos n p : 1 <= n -> 1 <= p -> 1 <= chunk_size n p.
Proof.
  intros Hn Hp. unfold chunk_size. destruct (Nat.eqb_spec (n mod (p * 4)) 0) as [E|E]; [|lia].
  assert (D := Nat.div_mod n (p * 4) ltac:(lia)). rewrite E in D. destruct (n / (p * 4)); lia.
Qed.

(** ** The serial loop *)
Section Loop.
Context {St R : Type}.
Implicit Types (b : batch St R) (s : sim St R).

(** What [run] returns does not depend on the state of the process. *)
Definition stateless b : Prop := forall s, In s (b_sims b) -> forall d st st', snd (s_run s d st) = snd (s_run s d st').

Lemma call_stateless b s : stateless b -> In s (b_sims b) -> forall d st st', snd (call s d st) = snd (call s d st').
Proof. intros H Hin d st st'. unfold call. destruct (forallb _ d); [apply H, Hin|reflexivity]. Qed.

Lemma run_single_snd b i nd base catch d st st' j : stateless b ->
  snd (run_single b i nd base catch (set_dir (b_type b) base j nd d) st) = snd (run_single b i nd base catch d st') /\
  snd (run_single b i nd base catch d st) = snd (run_single b i nd base catch d st').
Proof.
  intros H. unfold run_single. rewrite set_dir_set. destruct (nth_error (b_sims b) i) as [s|] eqn:E; [|auto].
  apply nth_error_In in E. assert (Hc := call_stateless b s H E (set_dir (b_type b) base i nd d) st st').
  destruct (call s (set_dir (b_type b) base i nd d) st) as [s1 r1], (call s (set_dir (b_type b) base i nd d) st') as [s2 r2]. cbn in Hc. subst r2.
  destruct r1 as [r|e]; [auto|]. destruct e; destruct catch; auto.
Qed.

Lemma run_single_dict b i nd base catch d st d1 st1 r : run_single b i nd base catch d st = (d1, st1, r) -> d1 = set_dir (b_type b) base i nd d.
Proof.
  unfold run_single. destruct (nth_error (b_sims b) i); [|congruence]. destruct (call s _ st) as [s1 [|e]]; [congruence|].
  destruct e; destruct catch; congruence.
Qed.

Lemma map_res_ext {A B} (f g : A -> res B) l : (forall x, In x l -> f x = g x) -> map_res f l = map_res g l.
Proof.
  induction l as [|x l IH]; intros H; [reflexivity|]. cbn [map_res]. rewrite (H x (or_introl eq_refl)), IH; [reflexivity|].
  intros; apply H; right; assumption.
Qed.

Lemma serial_stateless b nd base catch is_ : stateless b -> forall d st st0,
  snd (serial b nd base catch is_ d st) = map_res (fun i => snd (run_single b i nd base catch d st0)) is_.
Proof.
  intros H. induction is_ as [|i is_ IH]; intros d st st0; [reflexivity|]. cbn [serial map_res].
  assert (E0 := proj2 (run_single_snd b i nd base catch d st st0 0 H)).
  destruct (run_single b i nd base catch d st) as [[d1 st1] r1] eqn:E. cbn [snd] in E0. rewrite <- E0.
  assert (Hd := run_single_dict _ _ _ _ _ _ _ _ _ _ E). destruct r1 as [r|e]; [|reflexivity]. cbn [bind].
  specialize (IH d1 st1 st0). destruct (serial b nd base catch is_ d1 st1) as [[d2 st2] r2]. cbn [snd] in IH.
  rewrite (map_res_ext (fun i0 => snd (run_single b i0 nd base catch d st0)) (fun i0 => snd (run_single b i0 nd base catch d1 st0))).
  - rewrite <- IH. destruct r2; reflexivity.
  - intros j _. subst d1. symmetry. apply run_single_snd, H.
Qed.

(** The caller's dictionary after the loop: the directory of the last simulation started. *)
Lemma serial_dict b nd base catch is_ : forall d st d' st' r, serial b nd base catch is_ d st = (d', st', r) ->
  match is_ with
  | [] => d' = d
  | _ => exists i, In i is_ /\ d' = set_dir (b_type b) base i nd d /\ (forall rs, r = Ok rs -> i = last is_ 0) /\
     (forall e, r = Err e -> exists st0, snd (run_single b i nd base catch d st0) = Err e)
  end.
Proof.
  induction is_ as [|i is_ IH]; intros d st d' st' r H; [cbn in H; congruence|]. cbn [serial] in H.
  destruct (run_single b i nd base catch d st) as [[d1 st1] r1] eqn:E. assert (Hd := run_single_dict _ _ _ _ _ _ _ _ _ _ E).
  destruct r1 as [x|e].
  2:{ injection H as <- <- <-. exists i. split; [left; reflexivity|]. split; [exact Hd|]. split; [discriminate|].
      intros e0 He. injection He as <-. exists st. rewrite E. reflexivity. }
  destruct (serial b nd base catch is_ d1 st1) as [[d2 st2] r2] eqn:E2. specialize (IH _ _ _ _ _ E2).
  assert (H' : d' = d2 /\ (forall rs, r = Ok rs -> exists rs', r2 = Ok rs') /\ (forall e, r = Err e -> r2 = Err e)).
  { destruct r2; injection H as <- <- <-; repeat split; try discriminate; eauto. }
  destruct H' as (-> & Hok & Herr). destruct is_ as [|j is_].
  - cbn in E2. injection E2 as <- <- <-. exists i. split; [left; reflexivity|]. split; [exact Hd|].
    split; [reflexivity|]. intros e He. specialize (Herr e He). discriminate.
  - destruct IH as (k & Hk & -> & K1 & K2). exists k. split; [right; exact Hk|]. split; [subst d1; apply set_dir_set|].
    split; [intros rs Hr; destruct (Hok rs Hr) as (rs' & Hr'); rewrite (K1 rs' Hr'); reflexivity|].
    intros e He. destruct (K2 e (Herr e He)) as (st0 & Hst0). exists st0. rewrite <- Hst0. subst d1. unfold run_single. rewrite set_dir_set. reflexivity.
Qed.

(** States of the process between the simulations of a serial run. *)
Inductive chain (b : batch St R) (nd : nat) (base : string) (d : dict) : list nat -> St -> St -> list (option R) -> Prop :=
| chain_nil st : chain b nd base d [] st st []
| chain_ok i is_ s st st1 st2 r rs : nth_error (b_sims b) i = Some s ->
    call s (set_dir (b_type b) base i nd d) st = (st1, Ok r) -> chain b nd base d is_ st1 st2 rs -> chain b nd base d (i :: is_) st st2 (Some r :: rs)
| chain_none i is_ s st st1 st2 rs : nth_error (b_sims b) i = Some s ->
    call s (set_dir (b_type b) base i nd d) st = (st1, Err ValueError) -> chain b nd base d is_ st1 st2 rs -> chain b nd base d (i :: is_) st st2 (None :: rs).

Lemma chain_dict b nd base d j is_ st st' rs : chain b nd base (set_dir (b_type b) base j nd d) is_ st st' rs -> chain b nd base d is_ st st' rs.
Proof.
  induction 1; [constructor|eapply chain_ok; eauto|eapply chain_none; eauto]; rewrite set_dir_set in *; assumption.
Qed.

Lemma serial_chain b nd base catch is_ : forall d st d' st' rs, serial b nd base catch is_ d st = (d', st', Ok rs) ->
  chain b nd base d is_ st st' rs /\ (catch = false -> ~ In None rs).
Proof.
  induction is_ as [|i is_ IH]; intros d st d' st' rs H; [cbn in H; injection H as <- <- <-; split; [constructor|auto]|].
  cbn [serial] in H. destruct (run_single b i nd base catch d st) as [[d1 st1] r1] eqn:E. assert (Hd := run_single_dict _ _ _ _ _ _ _ _ _ _ E).
  destruct r1 as [x|e]; [|discriminate]. destruct (serial b nd base catch is_ d1 st1) as [[d2 st2] [rs2|e]] eqn:E2; [|discriminate].
  injection H as <- <- <-. destruct (IH _ _ _ _ _ E2) as (A & B). subst d1. apply chain_dict in A.
  unfold run_single in E. destruct (nth_error (b_sims b) i) as [s|] eqn:En; [|discriminate].
  destruct (call s (set_dir (b_type b) base i nd d) st) as [s1 r1] eqn:Ec.
  destruct r1 as [r|e].
  - injection E as <- <-. split; [eapply chain_ok; eauto|]. intros Hc [H|H]; [discriminate|]. exact (B Hc H).
  - destruct e; try discriminate. destruct catch; [|discriminate]. injection E as <- <-. split; [eapply chain_none; eauto|discriminate].
Qed.
End Loop.
