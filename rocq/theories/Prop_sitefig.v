(** C123: the figures of interpolated site factors. *)
From Coq Require Import Reals List Bool ZArith Lia Lra String.
From Coq Require Import DecimalString.
From Flocq Require Import Core.
From Verif Require Import Base M_interp M_sitefactors M_float M_text M_sitefig.
From Verif Require Import Prop_sitefactors.
Import ListNotations.
Open Scope string_scope.
Open Scope list_scope.
Open Scope R_scope.

(** What a call returns, without its figures. *)
Definition tables_only {A} (r : res (A * list sfig)) : res A := match r with Ok (t, _) => Ok t | Err e => Err e end.
Definition figures {A} (r : res (A * list sfig)) : list sfig := match r with Ok (_, f) => f | Err _ => [] end.

(** Rows as long as the figure shows them. *)
Definition cut (fourier : bool) (row : list R) : list R := if fourier then firstn 140 row else row.

Lemma semilogx_ok x y l : List.length x = List.length y -> semilogx x y l = Ok (mksline x y l).
Proof. intros E. unfold semilogx. rewrite E, Nat.eqb_refl. reflexivity. Qed.

Lemma refs_ok x : forall c ys, Forall (fun r : list R => List.length r = List.length x) ys ->
  map_res (fun p => semilogx x (map Fin (snd p)) (ref_label (fst p))) (combine c ys) = Ok (map (fun p => mksline x (map Fin (snd p)) (ref_label (fst p))) (combine c ys)).
Proof.
  intros c ys F. apply map_res_ok. intros [a r] I. cbn [fst snd]. apply in_combine_r in I. rewrite Forall_forall in F. apply semilogx_ok. rewrite map_length, (F r I). reflexivity.
Qed.

Lemma locate_shape s c : locate_grids s = Ok c -> List.length c = 8%nat.
Proof.
  unfold locate_grids. destruct (search_sorted (s_Vs30 s) _) as [v|]; [cbn [bind]|discriminate]. destruct (search_sorted (s_z1 s) _) as [z|]; [cbn [bind]|discriminate].
  destruct (search_sorted (s_PGA s) _) as [p|]; [cbn [bind]|discriminate]. intros [= <-]. reflexivity.
Qed.

Lemma same_length_all ys : same_length ys = true -> Forall (fun r => List.length r = List.length (hd [] ys)) ys.
Proof.
  destruct ys as [|y ys]; [constructor|]. cbn [same_length hd]. intros H. rewrite forallb_forall in H. constructor; [reflexivity|]. apply Forall_forall. intros r I. apply Nat.eqb_eq, H, I.
Qed.

Section C123.
Variable table : what -> string -> option (list (list R)).
Variable axis : what -> string -> option (list R).
Variable gd : list (R * R * R) -> list R -> R * R * R -> num.
Notation tab := (tab table).

(** A line of the figure that shows the tabulated row of a grid point. *)
Definition shows (w : what) (fourier : bool) (m : method) (x : list R) (a : nat * nat * nat) (l : sline) : Prop :=
  sl_x l = x /\ sl_label l = ref_label a /\ exists row, tab w fourier m a = Some row /\ sl_y l = map Fin (cut fourier row).

Lemma results_show (w : what) (s : site) (fourier : bool) m (show : bool) :
  match get_results table axis gd w s fourier m with
  | Err e => get_results_show table axis gd w s fourier m show = Err e
  | Ok (x, y) =>
      if show then
        if Nat.eqb (List.length x) (List.length y) then
          exists f c refs v z p, get_results_show table axis gd w s fourier m show = Ok (x, y, [f]) /\ locate_grids s = Ok c /\ sf_lines f = refs ++ [mksline x y "Interpolated"] /\
            Forall2 (shows w fourier m x) c refs /\ sf_xlabel f = (if fourier then "Frequency [Hz]" else "Period [sec]") /\ sf_ylabel f = "Amplification or phase shift" /\
            sf_site f = (v, z, p) /\ s = mksite (Fin v) (Fin z) (Fin p)
        else get_results_show table axis gd w s fourier m show = Err ValueError
      else get_results_show table axis gd w s fourier m show = Ok (x, y, [])
  end.
Proof.
  unfold get_results, get_results_show. destruct (locate_grids s) as [c|e] eqn:El; [cbn [bind]|reflexivity]. pose proof (locate_shape _ _ El) as L8.
  destruct (query_all table axis w fourier m c) as [[[pts ys] x]|e] eqn:Eq; [cbn [bind]|reflexivity]. destruct (query_all_spec table axis w fourier m c pts ys x Eq) as [_ F].
  destruct s as [sv sz sp]. cbn [s_Vs30 s_z1 s_PGA]. destruct sv as [v| | |]; cbn [fin_of bind]; try reflexivity. destruct sz as [z| | |]; cbn [fin_of bind]; try reflexivity. destruct sp as [p| | |]; cbn [fin_of bind]; try reflexivity.
  unfold interpolate8. destruct (same_length ys) eqn:Es; [cbn [bind]|reflexivity]. apply same_length_all in Es.
  set (y := map (fun i => gd pts (column ys i) (v, z, p)) (seq 0 (List.length (hd [] ys)))).
  assert (Ly : List.length y = List.length (hd [] ys)) by (unfold y; rewrite map_length, seq_length; reflexivity). clearbody y.
  assert (G : forall x1 y1 ys1, ys1 = map (cut fourier) ys -> Forall (fun r : list R => List.length r = List.length y1) ys1 ->
    if show then if Nat.eqb (List.length x1) (List.length y1) then
      exists f c0 refs v0 z0 p0, (let! f := plot_interp c (v, z, p) x1 ys1 y1 fourier in Ok (x1, y1, [f])) = Ok (x1, y1, [f]) /\ Ok c = Ok c0 /\ sf_lines f = refs ++ [mksline x1 y1 "Interpolated"] /\
            Forall2 (shows w fourier m x1) c0 refs /\ sf_xlabel f = (if fourier then "Frequency [Hz]" else "Period [sec]") /\ sf_ylabel f = "Amplification or phase shift" /\
            sf_site f = (v0, z0, p0) /\ mksite (Fin v) (Fin z) (Fin p) = mksite (Fin v0) (Fin z0) (Fin p0)
      else (let! f := plot_interp c (v, z, p) x1 ys1 y1 fourier in Ok (x1, y1, [f])) = Err ValueError else True).
  { intros x1 y1 ys1 E1 F1. destruct show; [|exact I]. unfold plot_interp. destruct (Nat.eqb (List.length x1) (List.length y1)) eqn:Exy.
    - apply Nat.eqb_eq in Exy. rewrite refs_ok by (rewrite Exy; exact F1). cbn [bind]. rewrite semilogx_ok by exact Exy. cbn [bind].
      eexists _, c, _, v, z, p. split; [reflexivity|]. split; [reflexivity|]. split; [reflexivity|]. split; [|repeat split; reflexivity].
      subst ys1. clear - F. induction F as [|a r c ys Ht F IH]; cbn [map combine]; constructor; [|exact IH]. cbn [fst snd]. split; [reflexivity|]. split; [reflexivity|]. exists r. split; [exact Ht|reflexivity].
    - destruct c as [|a c]; [discriminate L8|]. inversion F as [|? r ? ys' Ht F']; subst. cbn [map combine map_res fst snd bind].
      inversion F1 as [|? ? L1 _]; subst. assert (E0 : semilogx x1 (map Fin (cut fourier r)) (ref_label a) = Err ValueError) by (unfold semilogx; rewrite map_length, L1, Exy; reflexivity).
      rewrite E0. reflexivity. }
  assert (F1 : Forall (fun r : list R => List.length r = List.length (if fourier then firstn 140 y else y)) (map (cut fourier) ys)).
  { apply Forall_forall. intros r I. apply in_map_iff in I as (r0 & <- & I). rewrite Forall_forall in Es. specialize (Es r0 I). unfold cut. destruct fourier; [rewrite !firstn_length|]; congruence. }
  assert (EC : (if fourier then map (firstn 140) ys else ys) = map (cut fourier) ys) by (unfold cut; destruct fourier; [reflexivity|symmetry; apply map_id]).
  specialize (G (if fourier then firstn 140 x else x) (if fourier then firstn 140 y else y) _ EC ltac:(rewrite EC; exact F1)).
  destruct fourier, show; try reflexivity; exact G.
Qed.

(** Asking for the figures changes neither the tables nor the errors; without asking, none is made. *)
Theorem C123_same_tables : forall s m fourier show,
  tables_only (get_amplification_show table axis gd s m fourier show) = get_amplification table axis gd s m fourier /\
  tables_only (get_phase_shift_show table axis gd s m show) = get_phase_shift table axis gd s m /\
  tables_only (get_both_show table axis gd s m show) = get_both table axis gd s m /\
  figures (get_amplification_show table axis gd s m fourier false) = [] /\ figures (get_phase_shift_show table axis gd s m false) = [] /\ figures (get_both_show table axis gd s m false) = [].
Proof.
  assert (A : forall s m fourier show, tables_only (get_amplification_show table axis gd s m fourier show) = get_amplification table axis gd s m fourier /\ figures (get_amplification_show table axis gd s m fourier false) = []).
  { intros s m fourier show. destruct m; try (split; reflexivity); unfold get_amplification, get_amplification_show;
    match goal with |- context [get_results table axis gd Amplif s fourier ?m] => pose proof (results_show Amplif s fourier m show) as K; pose proof (results_show Amplif s fourier m false) as K0 end;
    (destruct (get_results table axis gd Amplif s fourier _) as [[x y]|e]; [|rewrite K, K0; split; reflexivity]);
    rewrite K0; cbn [bind]; (split; [|destruct (Nat.eqb (List.length x) (List.length y)); reflexivity]);
    (destruct show; [|rewrite K0; cbn [bind]; destruct (Nat.eqb (List.length x) (List.length y)); reflexivity]);
    (destruct (Nat.eqb (List.length x) (List.length y)) eqn:E; [destruct K as (f & c & refs & v & z & p & -> & _)|rewrite K]); cbn [bind]; try rewrite E; reflexivity. }
  assert (P : forall s m show, tables_only (get_phase_shift_show table axis gd s m show) = get_phase_shift table axis gd s m /\ figures (get_phase_shift_show table axis gd s m false) = []).
  { intros s m show. destruct m; try (split; reflexivity). unfold get_phase_shift, get_phase_shift_show.
    pose proof (results_show Phase s true eq_hh show) as K. pose proof (results_show Phase s true eq_hh false) as K0.
    destruct (get_results table axis gd Phase s true eq_hh) as [[x y]|e]; [|rewrite K, K0; split; reflexivity].
    rewrite K0. cbn [bind]. split; [|destruct (Nat.eqb (List.length x) (List.length y)); reflexivity].
    destruct show; [|rewrite K0; cbn [bind]; destruct (Nat.eqb (List.length x) (List.length y)); reflexivity].
    destruct (Nat.eqb (List.length x) (List.length y)) eqn:E; [destruct K as (f & c & refs & v & z & p & -> & _)|rewrite K]; cbn [bind]; try rewrite E; reflexivity. }
  intros s m fourier show. destruct (A s m fourier show) as [A1 A2], (P s m show) as [P1 P2]. split; [exact A1|]. split; [exact P1|].
  assert (B : forall sh, tables_only (get_both_show table axis gd s m sh) = get_both table axis gd s m /\ (sh = false -> figures (get_both_show table axis gd s m sh) = [])).
  { intros sh. unfold get_both, get_both_show. destruct (A s m true sh) as [B1 B2], (P s eq_hh sh) as [C1 C2]. rewrite <- B1, <- C1.
    destruct (get_amplification_show table axis gd s m true sh) as [[t f]|e] eqn:EA; cbn [tables_only bind]; [|split; reflexivity].
    destruct (get_phase_shift_show table axis gd s eq_hh sh) as [[t' f']|e] eqn:EP; cbn [tables_only bind fst snd]; [|split; reflexivity]. split; [reflexivity|]. intros ->.
    rewrite EA in B2. rewrite EP in C2. cbn in B2, C2. subst. reflexivity. }
  split; [apply B|]. split; [exact A2|]. split; [exact P2|]. apply B. reflexivity.
Qed.

(** One figure per table: the tabulated rows of the eight neighbouring grid points, each under its label,
    and last the returned factors, over frequencies or periods. *)
Theorem C123_amplification : forall s m fourier t figs, get_amplification_show table axis gd s m fourier true = Ok (t, figs) ->
  exists f c refs mid v z p, figs = [f] /\ locate_grids s = Ok c /\ List.length c = 8%nat /\ sf_lines f = refs ++ [mid] /\ Forall2 (shows Amplif fourier m (sl_x mid)) c refs /\
    sl_label mid = "Interpolated" /\ List.length (sl_x mid) = List.length (sl_y mid) /\
    t = (if fourier then combine (sl_x mid) (sl_y mid) else rev (map (fun q => (1 / fst q, snd q)) (combine (sl_x mid) (sl_y mid)))) /\
    sf_xlabel f = (if fourier then "Frequency [Hz]" else "Period [sec]") /\ sf_site f = (v, z, p) /\ s = mksite (Fin v) (Fin z) (Fin p).
Proof.
  assert (CM : forall x (y : list num), combine (map (fun t => 1 / t) x) y = map (fun q => (1 / fst q, snd q)) (combine x y)).
  { clear. induction x as [|a x IH]; intros [|b y]; cbn [map combine fst snd]; try reflexivity. f_equal. apply IH. }
  intros s m fourier t figs H.
  assert (Hm : m = nl_hh \/ m = eq_hh) by (destruct m; try discriminate H; auto).
  assert (H' : (let! r := get_results_show table axis gd Amplif s fourier m true in let '(x, y, figs) := r in
      if Nat.eqb (List.length x) (List.length y) then Ok (if fourier then combine x y else rev (combine (map (fun t => 1 / t) x) y), figs) else Err ValueError) = Ok (t, figs)) by (destruct Hm as [-> | ->]; exact H).
  clear H. pose proof (results_show Amplif s fourier m true) as K. destruct (get_results table axis gd Amplif s fourier m) as [[x y]|e]; [|rewrite K in H'; discriminate].
  cbn iota in K. destruct (Nat.eqb (List.length x) (List.length y)) eqn:E; [|rewrite K in H'; discriminate]. destruct K as (f & c & refs & v & z & p & K & Ec & El & F & X & _ & Z & S).
  rewrite K in H'. cbn [bind] in H'. rewrite E in H'. apply Nat.eqb_eq in E. injection H' as Et Ef.
  exists f, c, refs, (mksline x y "Interpolated"), v, z, p. cbn [sl_x sl_y sl_label]. rewrite CM in Et. repeat split; auto. apply locate_shape in Ec. exact Ec.
Qed.

Theorem C123_phase : forall s m t figs, get_phase_shift_show table axis gd s m true = Ok (t, figs) ->
  exists f c refs mid v z p, figs = [f] /\ locate_grids s = Ok c /\ List.length c = 8%nat /\ sf_lines f = refs ++ [mid] /\ Forall2 (shows Phase true m (sl_x mid)) c refs /\
    sl_label mid = "Interpolated" /\ List.length (sl_x mid) = List.length (sl_y mid) /\ t = combine (sl_x mid) (sl_y mid) /\
    sf_xlabel f = "Frequency [Hz]" /\ sf_site f = (v, z, p) /\ s = mksite (Fin v) (Fin z) (Fin p).
Proof.
  intros s m t figs H. destruct m; try discriminate H. unfold get_phase_shift_show in H.
  pose proof (results_show Phase s true eq_hh true) as K. destruct (get_results table axis gd Phase s true eq_hh) as [[x y]|e]; [|rewrite K in H; discriminate].
  cbn iota in K. destruct (Nat.eqb (List.length x) (List.length y)) eqn:E; [|rewrite K in H; discriminate]. destruct K as (f & c & refs & v & z & p & K & Ec & El & F & X & _ & Z & S).
  rewrite K in H. cbn [bind] in H. rewrite E in H. apply Nat.eqb_eq in E. injection H as Et Ef.
  exists f, c, refs, (mksline x y "Interpolated"), v, z, p. cbn [sl_x sl_y sl_label]. repeat split; auto. apply locate_shape in Ec. exact Ec.
Qed.

(** Amplification and phase together: two figures, the amplification first, and nothing on them tells
    which is which: the labels of the axes are the same. *)
Theorem C123_both : forall s m a p figs, get_both_show table axis gd s m true = Ok (a, p, figs) ->
  exists f g, figs = [f; g] /\ get_amplification_show table axis gd s m true true = Ok (a, [f]) /\ get_phase_shift_show table axis gd s eq_hh true = Ok (p, [g]) /\
    sf_xlabel f = sf_xlabel g /\ sf_ylabel f = sf_ylabel g /\ sf_site f = sf_site g /\ map sl_label (sf_lines f) = map sl_label (sf_lines g).
Proof.
  assert (YL : forall w s fourier m x y f, get_results_show table axis gd w s fourier m true = Ok (x, y, [f]) -> sf_ylabel f = "Amplification or phase shift").
  { intros w s fourier m x y f H. pose proof (results_show w s fourier m true) as K. destruct (get_results table axis gd w s fourier m) as [[x' y']|e]; [|congruence].
    destruct (Nat.eqb _ _); [|congruence]. destruct K as (f' & c & refs & v & z & p & K & _ & _ & _ & _ & Y & _). congruence. }
  intros s m a p figs H. unfold get_both_show in H. destruct (get_amplification_show table axis gd s m true true) as [[t1 f1]|e] eqn:EA; [cbn [bind] in H|discriminate].
  destruct (get_phase_shift_show table axis gd s eq_hh true) as [[t2 f2]|e] eqn:EP; [cbn [bind fst snd] in H|discriminate]. injection H as <- <- <-.
  destruct (C123_amplification _ _ _ _ _ EA) as (f & c & refs & mid & v & z & q & -> & Ec & _ & El & F & Lm & _ & _ & Xf & Sf & Es).
  destruct (C123_phase _ _ _ _ EP) as (g & c' & refs' & mid' & v' & z' & q' & -> & Ec' & _ & El' & F' & Lm' & _ & _ & Xg & Sg & Es').
  exists f, g. split; [reflexivity|]. split; [reflexivity|]. split; [reflexivity|]. split; [congruence|]. split; [|split; [congruence|]].
  - transitivity "Amplification or phase shift"; [|symmetry].
    + destruct m; try discriminate EA; unfold get_amplification_show in EA;
      (destruct (get_results_show table axis gd Amplif s true _ true) as [[[x y] fs]|] eqn:E; [cbn [bind] in EA|discriminate]; destruct (Nat.eqb (List.length x) (List.length y)); [|discriminate]; injection EA as _ ->; eapply YL; exact E).
    + unfold get_phase_shift_show in EP. destruct (get_results_show table axis gd Phase s true _ true) as [[[x y] fs]|] eqn:E; [cbn [bind] in EP|discriminate]. destruct (Nat.eqb (List.length x) (List.length y)); [|discriminate]. injection EP as _ ->. eapply YL; exact E.
  - rewrite El, El', !map_app. cbn [map]. rewrite Lm, Lm'. f_equal. assert (c' = c) by congruence. subst c'.
    assert (G : forall w fo m0 x c refs, Forall2 (shows w fo m0 x) c refs -> map sl_label refs = map ref_label c).
    { clear. induction 1 as [|a l c refs (_ & Hl & _) F IH]; [reflexivity|]. cbn [map]. congruence. }
    rewrite (G _ _ _ _ _ _ F), (G _ _ _ _ _ _ F'). reflexivity.
Qed.

(** Interpolation stays inside: at every abscissa the last line lies between the eight others. *)
Theorem C123_between : linear_on_boxes gd -> forall v z p m fourier t f refs mid, 175 <= v <= 950 -> 8 <= z <= 900 -> 1/100 <= p <= 15/10 ->
  get_amplification_show table axis gd (mksite (Fin v) (Fin z) (Fin p)) m fourier true = Ok (t, [f]) -> sf_lines f = refs ++ [mid] ->
  forall n, (n < List.length (sl_x mid))%nat -> exists r, nth n (sl_y mid) NaN = Fin r /\
    forall lo hi, (forall l u, In l refs -> nth n (sl_y l) NaN = Fin u -> lo <= u <= hi) -> lo <= r <= hi.
Proof.
  intros Hgd v z p m fourier t f refs mid Hv Hz Hp H El n Hn.
  assert (Hm : m = nl_hh \/ m = eq_hh) by (destruct m; try discriminate H; auto).
  assert (H' : (let! r := get_results_show table axis gd Amplif (mksite (Fin v) (Fin z) (Fin p)) fourier m true in let '(x, y, figs) := r in
      if Nat.eqb (List.length x) (List.length y) then Ok (if fourier then combine x y else rev (combine (map (fun t => 1 / t) x) y), figs) else Err ValueError) = Ok (t, [f])) by (destruct Hm as [-> | ->]; exact H).
  clear H. pose proof (results_show Amplif (mksite (Fin v) (Fin z) (Fin p)) fourier m true) as K.
  destruct (get_results table axis gd Amplif (mksite (Fin v) (Fin z) (Fin p)) fourier m) as [[x y]|e] eqn:ER; [|rewrite K in H'; discriminate].
  cbn iota in K. destruct (Nat.eqb (List.length x) (List.length y)) eqn:E; [|rewrite K in H'; discriminate]. destruct K as (f' & c & refs' & v' & z' & p' & K & Ec & El' & F & _).
  rewrite K in H'. cbn [bind] in H'. rewrite E in H'. apply Nat.eqb_eq in E. injection H' as _ Ef. subst f'. rewrite El in El'. apply app_inj_tail in El' as [<- ->]. cbn [sl_x sl_y] in *.
  destruct (C30_between_neighbours table axis gd Hgd Amplif fourier m v z p x y n Hv Hz Hp ER ltac:(lia)) as (c' & r & Ec' & Er & B & _).
  assert (c' = c) by congruence. subst c'. exists r. split; [exact Er|]. intros lo hi Hb. apply B. intros a row Ia Ta.
  assert (Il : exists l, In l refs /\ shows Amplif fourier m x a l).
  { clear - F Ia. induction F as [|a' l c refs Hl F IH]; [destruct Ia|]. destruct Ia as [<-|Ia]; [exists l; split; [left; reflexivity|exact Hl]|]. destruct (IH Ia) as (l' & ? & ?). exists l'. split; [right|]; assumption. }
  destruct Il as (l & Il & _ & _ & row' & Ta' & Yl). assert (row' = row) by congruence. subst row'.
  destruct (results_spec table axis gd Hgd Amplif fourier m v z p x y Hv Hz Hp ER) as (i & j & k & ys & wt & Ec2 & _ & _ & _ & _ & _ & _ & F2 & _ & Ly & SL & _).
  assert (c = corners i j k) by congruence. subst c. apply same_length_all in SL.
  assert (Lr : List.length row = List.length (hd [] ys)).
  { rewrite Forall_forall in SL. apply SL. clear - F2 Ia Ta. induction F2 as [|a' r' c ys Ha F2 IH]; [destruct Ia|]. destruct Ia as [<-|Ia]; [left; congruence|right; apply IH, Ia]. }
  assert (Lc : List.length (sl_y l) = List.length (cut fourier row)) by (rewrite Yl, map_length; reflexivity).
  assert (N140 : fourier = true -> (n < 140)%nat).
  { intros ->. unfold get_results in ER. destruct (locate_grids _) as [cc|]; [cbn [bind] in ER|discriminate]. destruct (query_all _ _ _ _ _ _) as [[[pts0 ys0] x0]|]; [cbn [bind] in ER|discriminate].
    cbn [s_Vs30 s_z1 s_PGA fin_of bind] in ER. destruct (interpolate8 _ _ _ _) as [y0|]; [cbn [bind] in ER|discriminate]. assert (Ey : firstn 140 y0 = y) by congruence. rewrite E, <- Ey, firstn_length in Hn. lia. }
  apply (Hb l); [exact Il|]. rewrite Yl.
  assert (Nc : (n < List.length (cut fourier row))%nat). { unfold cut. destruct fourier; [rewrite firstn_length; specialize (N140 eq_refl); lia|lia]. }
  rewrite (nth_indep _ NaN (Fin 0)) by (rewrite map_length; exact Nc). rewrite map_nth. f_equal.
  unfold cut in *. destruct fourier; [|reflexivity]. clear - Nc. rewrite <- (firstn_skipn 140 row) at 2. rewrite app_nth1 by exact Nc. reflexivity.
Qed.
End C123.

(** ** Labels *)
Definition grid_points : list (nat * nat * nat) := list_prod (list_prod (seq 0 17) (seq 0 10)) (seq 0 11).
Fixpoint all_distinct (l : list string) : bool := match l with [] => true | s :: l' => (negb (existsb (String.eqb s) l') && all_distinct l')%bool end.
Lemma all_distinct_NoDup l : all_distinct l = true -> NoDup l.
Proof.
  induction l as [|s l IH]; [constructor|]. cbn [all_distinct]. intros H. apply andb_true_iff in H as [H1 H2]. constructor; [|apply IH, H2]. intros I. apply negb_true_iff in H1.
  assert (existsb (String.eqb s) l = true) by (apply existsb_exists; exists s; split; [exact I|apply String.eqb_refl]). congruence.
Qed.
Lemma labels_distinct : all_distinct (map ref_label grid_points) = true.
Proof. vm_compute. reflexivity. Qed.

(** No two grid points have the same label. *)
Theorem C123_labels : forall i j k i' j' k', (i < 17)%nat -> (j < 10)%nat -> (k < 11)%nat -> (i' < 17)%nat -> (j' < 10)%nat -> (k' < 11)%nat ->
  ref_label (i, j, k) = ref_label (i', j', k') -> (i, j, k) = (i', j', k').
Proof.
  intros i j k i' j' k' Hi Hj Hk Hi' Hj' Hk' E. pose proof (all_distinct_NoDup _ labels_distinct) as N.
  assert (I : forall a b c, (a < 17)%nat -> (b < 10)%nat -> (c < 11)%nat -> In (a, b, c) grid_points).
  { intros a b c Ha Hb Hc. unfold grid_points. repeat apply in_prod; apply in_seq; lia. }
  pose proof (I i j k Hi Hj Hk) as I1. pose proof (I i' j' k' Hi' Hj' Hk') as I2. clear I. generalize dependent grid_points. intros l N I1 I2.
  induction l as [|a l IH]; [destruct I1|]. cbn [map] in N. inversion N as [|? ? N1 N2]; subst.
  destruct I1 as [-> |I1], I2 as [E2|I2]; [exact E2| | |auto].
  - exfalso. apply N1. rewrite E. apply in_map, I2.
  - exfalso. apply N1. subst a. rewrite <- E. apply in_map, I1.
Qed.

(** Hence the nine lines of a figure are told apart by their labels. *)
Lemma corners_labels i j k : (i < 16)%nat -> (j < 9)%nat -> (k < 10)%nat -> NoDup (map ref_label (corners i j k)).
Proof.
  intros Hi Hj Hk.
  assert (N : NoDup (corners i j k)).
  { unfold corners. repeat constructor; cbn [In]; intros H; repeat (destruct H as [H|H]; [injection H; lia|]); exact H. }
  assert (B : forall a, In a (corners i j k) -> (fst (fst a) < 17)%nat /\ (snd (fst a) < 10)%nat /\ (snd a < 11)%nat).
  { intros a I. apply in_corners in I. lia. }
  induction N as [|a l N1 N IH]; [constructor|]. cbn [map]. constructor; [|apply IH; intros; apply B; right; assumption].
  intros I. apply in_map_iff in I as (b & E & I). destruct (B a (or_introl eq_refl)) as (A1 & A2 & A3). destruct (B b (or_intror I)) as (B1 & B2 & B3).
  destruct a as [[a1 a2] a3], b as [[b1 b2] b3]. cbn [fst snd] in *. apply N1. rewrite <- (C123_labels _ _ _ _ _ _ B1 B2 B3 A1 A2 A3 E). exact I.
Qed.

Lemma nodup_snoc {A} (l : list A) x : NoDup l -> ~ In x l -> NoDup (l ++ [x]).
Proof. intros N H. apply NoDup_rev in N. rewrite <- (rev_involutive (l ++ [x])). apply NoDup_rev. rewrite rev_app_distr. cbn. constructor; [rewrite <- in_rev; exact H|exact N]. Qed.
Lemma label_not_mid a : ref_label a <> "Interpolated".
Proof.
  unfold ref_label. intros H. assert (D : forall z, (0 <= z)%Z -> forall r, (dec z ++ r)%string <> "Interpolated").
  { clear. intros z Hz r. unfold dec. destruct z as [|q|q]; [discriminate| |lia]. cbn [Z.to_int]. unfold NilZero.string_of_int, NilZero.string_of_uint.
    destruct (Pos.to_uint q); cbn [NilEmpty.string_of_uint]; discriminate. }
  refine (D _ _ _ H). destruct (nth_in_or_default (fst (fst a)) Vs30_array 0%Z) as [I| ->]; [|lia].
  assert (G : Forall (fun z => (0 <= z)%Z) Vs30_array) by (unfold Vs30_array; repeat constructor; lia). rewrite Forall_forall in G. apply G, I.
Qed.

Theorem C123_legend : forall table axis gd v z p m fourier t f, 175 <= v <= 950 -> 8 <= z <= 900 -> 1/100 <= p <= 15/10 ->
  get_amplification_show table axis gd (mksite (Fin v) (Fin z) (Fin p)) m fourier true = Ok (t, [f]) ->
  List.length (sf_lines f) = 9%nat /\ NoDup (map sl_label (sf_lines f)).
Proof.
  intros table axis gd v z p m fourier t f Hv Hz Hp H. destruct (C123_amplification _ _ _ _ _ _ _ _ H) as (f' & c & refs & mid & v' & z' & p' & [= <-] & Ec & L & El & F & Lm & _).
  destruct (locate_spec v z p Hv Hz Hp) as (i & j & k & Ec' & Hi & Hj & Hk & _). assert (c = corners i j k) by congruence. subst c.
  assert (G : map sl_label refs = map ref_label (corners i j k)).
  { clear - F. induction F as [|a l c refs (_ & Hl & _) F IH]; [reflexivity|]. cbn [map]. congruence. }
  rewrite El. split.
  - rewrite app_length, <- (map_length sl_label refs), G, map_length, L. reflexivity.
  - rewrite map_app. cbn [map]. rewrite Lm, G. apply nodup_snoc; [apply corners_labels; assumption|]. intros I. apply in_map_iff in I as (a & E & _). exact (label_not_mid a E).
Qed.

(** The accelerations in the labels are those of the grid, except 1.25 g. *)
Theorem C123_label_numbers : forall k, (k < 11)%nat -> k <> 9%nat -> text_value (fmt_g 2 (nth k PGA_f64 f0)) = Some (nth k PGA_array 0).
Proof.
  intros k Hk H9. assert (G : forall n e, read_dec (fmt_g 2 (nth k PGA_f64 f0)) = Some (n, e) -> IZR n * bpow radix10 e = nth k PGA_array 0 -> text_value (fmt_g 2 (nth k PGA_f64 f0)) = Some (nth k PGA_array 0)).
  { intros n e E V. unfold text_value. rewrite E, V. reflexivity. }
  assert (B0 : bpow radix10 0 = 1) by reflexivity. assert (B1 : bpow radix10 (-1) = / 10) by reflexivity. assert (B2 : bpow radix10 (-2) = / 100) by reflexivity.
  do 11 (destruct k as [|k]; [first [exfalso; apply H9; reflexivity|eapply G; [vm_compute; reflexivity|rewrite ?B0, ?B1, ?B2; cbn [nth PGA_array]; lra]]|]). lia.
Qed.
Theorem C123_label_numbers_refuted : exists k v, (k < 11)%nat /\ nth k PGA_array 0 = 125 / 100 /\ text_value (fmt_g 2 (nth k PGA_f64 f0)) = Some v /\ v = 12 / 10.
Proof.
  exists 9%nat, (IZR 12 * bpow radix10 (-1)). split; [lia|]. split; [cbn; lra|]. split; [|cbn; lra].
  unfold text_value. assert (E : read_dec (fmt_g 2 (nth 9 PGA_f64 f0)) = Some (12%Z, (-1)%Z)) by (vm_compute; reflexivity). rewrite E. reflexivity.
Qed.

Example C123_instance : exists t f, get_amplification_show flat_table flat_axis tri (mksite (Fin 300) (Fin 100) (Fin (3/10))) nl_hh false true = Ok (t, [f]) /\ linear_on_boxes tri /\
  exists a p g h, get_both_show flat_table flat_axis tri (mksite (Fin 300) (Fin 100) (Fin (3/10))) nl_hh true = Ok (a, p, [g; h]).
Proof.
  destruct (C79_amplification_succeeds flat_table flat_axis tri nl_hh false 2 300 100 (3/10)) as (t & _ & _ & _ & E & _); try lra; [left; reflexivity|apply flat_ok|].
  destruct (C123_same_tables flat_table flat_axis tri (mksite (Fin 300) (Fin 100) (Fin (3/10))) nl_hh false true) as (A & _ & B & _).
  destruct (get_amplification_show _ _ _ _ nl_hh false true) as [[t' figs]|] eqn:EA; [|rewrite E in A; discriminate].
  destruct (C123_amplification _ _ _ _ _ _ _ _ EA) as (f & _ & _ & _ & _ & _ & _ & -> & _). exists t', f. split; [reflexivity|]. split; [exact linear_on_boxes_instance|].
  destruct (C79_phase_and_both flat_table flat_axis tri nl_hh 300 100 (3/10) 2 2) as (a & p & EB & _); try lra; [left; reflexivity|apply flat_ok|apply flat_ok|].
  destruct (get_both_show _ _ _ _ nl_hh true) as [[[a' p'] figs]|] eqn:Eb; [|rewrite EB in B; discriminate].
  destruct (C123_both _ _ _ _ _ _ _ _ Eb) as (g & h & -> & _). exists a', p', g, h. reflexivity.
Qed.
