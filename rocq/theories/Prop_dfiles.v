(** C101: files written by the damping fits. *)
From Coq Require Import Reals List Bool ZArith String Ascii Lia Lra.
From Verif Require Import Base M_generic M_profile M_vs_profile M_motion M_interp P_interp M_soil P_soil M_params P_params Prop_params M_curves P_curves Prop_curves P_batch M_dampcal M_files M_fits Prop_dfits.
Import ListNotations.
Open Scope R_scope.
Open Scope string_scope.
Open Scope list_scope.

(** ** Strings *)
Definition free_of (a : ascii) (s : string) : Prop := forall n, String.get n s <> Some a.
Lemma free_cons a c s : free_of a (String c s) -> c <> a /\ free_of a s.
Proof. intros H. split; [intros ->; apply (H 0%nat); reflexivity|]. intros n. apply (H (S n)). Qed.
Lemma app_nil_s s : (s ++ "")%string = s.
Proof. induction s as [|c s IH]; [reflexivity|]. cbn [append]. rewrite IH. reflexivity. Qed.
Lemma app_assoc_s a b c : ((a ++ b) ++ c)%string = (a ++ b ++ c)%string.
Proof. induction a as [|x a IH]; [reflexivity|]. cbn [append]. rewrite IH. reflexivity. Qed.

Lemma split_free s : free_of "/" s -> split_slash s = [s].
Proof.
  induction s as [|c s IH]; intros H; [reflexivity|]. apply free_cons in H as [Hc Hs]. cbn [split_slash]. rewrite (proj2 (Ascii.eqb_neq c "/") Hc), (IH Hs). reflexivity.
Qed.
Lemma split_ne s : split_slash s <> [].
Proof. destruct s as [|c s]; [discriminate|]. cbn [split_slash]. destruct (Ascii.eqb c "/"); [discriminate|]. destruct (split_slash s); discriminate. Qed.
Lemma base_name_app d s : free_of "/" s -> base_name (d ++ String "/" s) = s.
Proof.
  intros H. unfold base_name. assert (X : split_slash (String "/" s) = [""; s]) by (cbn [split_slash]; rewrite (split_free s H); reflexivity).
  assert (Y : forall d, exists x l, split_slash (d ++ String "/" s) = x :: l /\ last l "" = s /\ l <> []).
  { clear d. induction d as [|c d (x & l & E & L & N)].
    - exists "", [s]. split; [exact X|]. split; [reflexivity|discriminate].
    - cbn [append split_slash]. destruct (Ascii.eqb c "/").
      + exists "", (split_slash (d ++ String "/" s)). split; [reflexivity|]. rewrite E. split; [|discriminate]. destruct l; [congruence|exact L].
      + rewrite E. exists (String c x), l. auto. }
  destruct (Y d) as (x & l & E & L & N). rewrite E. destruct l; [congruence|exact L].
Qed.
Lemma base_name_free s : free_of "/" s -> base_name s = s.
Proof. intros H. unfold base_name. rewrite (split_free s H). reflexivity. Qed.

Lemma has_dot_app a b : has_dot (a ++ b) = has_dot a || has_dot b.
Proof. induction a as [|c a IH]; [reflexivity|]. cbn [append has_dot]. rewrite IH, orb_assoc. reflexivity. Qed.
Lemma has_dot_free s : free_of "." s -> has_dot s = false.
Proof.
  induction s as [|c s IH]; intros H; [reflexivity|]. apply free_cons in H as [Hc Hs]. cbn [has_dot]. rewrite (proj2 (Ascii.eqb_neq c ".") Hc), (IH Hs). reflexivity.
Qed.
Lemma cut_dot_app b e : free_of "." e -> cut_dot (b ++ String "." e) = b.
Proof.
  intros H. induction b as [|c b IH]; cbn [append cut_dot].
  - rewrite (has_dot_free e H). reflexivity.
  - rewrite has_dot_app. cbn [has_dot]. rewrite orb_true_r, andb_false_r, IH. reflexivity.
Qed.
Lemma cut_dot_free s : free_of "." s -> cut_dot s = s.
Proof. induction s as [|c s IH]; intros H; [reflexivity|]. apply free_cons in H as [Hc Hs]. cbn [cut_dot]. rewrite (proj2 (Ascii.eqb_neq c ".") Hc), (IH Hs). reflexivity. Qed.

(** [c] occurs in [s] (a character other than a dot). *)
Definition has_plain (s : string) : Prop := exists n a, String.get n s = Some a /\ a <> "."%char.
Lemma all_dots_false s : has_plain s -> all_dots s = false.
Proof.
  intros (n & a & H & Ha). revert n H. induction s as [|c s IH]; intros n H; [destruct n; discriminate|]. cbn [all_dots]. destruct n as [|n].
  - cbn in H. injection H as ->. rewrite (proj2 (Ascii.eqb_neq a ".") Ha). reflexivity.
  - cbn in H. rewrite (IH n H). apply andb_false_r.
Qed.
Lemma stem_app b e : has_plain b -> free_of "." e -> stem (b ++ String "." e) = b.
Proof. intros Hb He. unfold stem. rewrite (cut_dot_app b e He), (all_dots_false b Hb). reflexivity. Qed.
Lemma stem_free s : free_of "." s -> stem s = s.
Proof. intros H. unfold stem. rewrite (cut_dot_free s H). destruct (all_dots s); reflexivity. Qed.

Lemma contains_iff t s : contains t s = true <-> exists a b, s = (a ++ t ++ b)%string.
Proof.
  assert (P : forall s, prefix t s = true <-> exists b, s = (t ++ b)%string).
  { clear s. induction t as [|c t IH]; intros s; cbn [append].
    - split; [intros _; exists s; reflexivity|]. intros _. destruct s; reflexivity.
    - destruct s as [|c' s]; cbn [prefix]; [split; [discriminate|intros (b & H); discriminate]|]. destruct (ascii_dec c c') as [->|N].
      + rewrite IH. split; intros (b & H); exists b; [rewrite H; reflexivity|injection H as <-; reflexivity].
      + split; [discriminate|]. intros (b & H). injection H as <- _. contradiction. }
  induction s as [|c s IH]; cbn [contains]; rewrite orb_true_iff, P.
  - split; [intros [(b & H)|H]; [exists "", b; exact H|discriminate]|]. intros (a & b & H). left. destruct a; [exists b; exact H|discriminate].
  - rewrite IH. split.
    + intros [(b & H)|(a & b & H)]; [exists "", b; exact H|exists (String c a), b; rewrite H; reflexivity].
    + intros (a & b & H). destruct a as [|c' a]; [left; exists b; exact H|]. injection H as <- ->. right. exists a, b. reflexivity.
Qed.
Lemma drop_app n a b : String.length a = n -> drop n (a ++ b) = b.
Proof. intros <-. induction a as [|c a IH]; [destruct b; reflexivity|]. cbn [append String.length drop]. exact IH. Qed.

(** ** The default names *)
Lemma plain_app_l a b : has_plain a -> has_plain (a ++ b).
Proof. intros (n & x & H & Hx). exists n, x. split; [|exact Hx]. revert n H. induction a as [|c a IH]; intros [|n] H; try discriminate; cbn in *; auto. Qed.

(** A file "…/curve_SITE.ext" gives "HH_x_SITE.txt" (or H4, or png): the directory is
    dropped, the file is written where the program runs. *)
Theorem C101_site_name : forall dir site ext pre e, free_of "/" site -> free_of "/" ext -> free_of "." ext ->
  output_file_name (Some (dir ++ "/curve_" ++ site ++ "." ++ ext)%string) pre e = Ok (pre ++ "_x_" ++ site ++ "." ++ e)%string /\
  output_file_name (Some ("curve_" ++ site ++ "." ++ ext)%string) pre e = Ok (pre ++ "_x_" ++ site ++ "." ++ e)%string.
Proof.
  intros dir site ext pre e Hs He Hd.
  assert (F : free_of "/" ("curve_" ++ site ++ "." ++ ext)).
  { assert (A : forall a b, free_of "/" a -> free_of "/" b -> free_of "/" (a ++ b)).
    { clear. induction a as [|c a IH]; intros b Ha Hb; [exact Hb|]. apply free_cons in Ha as [Hc Ha]. intros [|n]; cbn; [congruence|]. apply IH; assumption. }
    apply A; [|apply A; [exact Hs|apply A; [|exact He]]]; intros n; do 7 (destruct n as [|n]; [discriminate|]); destruct n; discriminate. }
  assert (St : stem ("curve_" ++ site ++ "." ++ ext) = ("curve_" ++ site)%string).
  { change ("." ++ ext)%string with (String "." ext). rewrite <- app_assoc_s. apply stem_app; [|exact Hd]. apply plain_app_l. exists 0%nat, "c"%char. split; [reflexivity|discriminate]. }
  assert (Ct : contains "curve_" ("curve_" ++ site) = true) by (apply contains_iff; exists "", site; reflexivity).
  unfold output_file_name. change ("/curve_" ++ site ++ "." ++ ext)%string with (String "/" ("curve_" ++ site ++ "." ++ ext)).
  rewrite (base_name_app dir _ F), (base_name_free _ F), St, Ct, (drop_app 6 "curve_" site eq_refl). split; reflexivity.
Qed.

(** A file whose name does not contain "curve_" gives its whole name. *)
Theorem C101_other_name : forall dir b ext pre e, free_of "/" b -> free_of "/" ext -> free_of "." ext -> has_plain b ->
  (forall x y, b <> (x ++ "curve_" ++ y)%string) ->
  output_file_name (Some (dir ++ "/" ++ b ++ "." ++ ext)%string) pre e = Ok (pre ++ "_x_" ++ b ++ "." ++ e)%string.
Proof.
  intros dir b ext pre e Hb He Hd Hp Hn. unfold output_file_name. change ("/" ++ b ++ "." ++ ext)%string with (String "/" (b ++ String "." ext)).
  rewrite base_name_app.
  2:{ assert (A : forall a c, free_of "/" a -> free_of "/" c -> free_of "/" (a ++ c)).
      { clear. induction a as [|c a IH]; intros b Ha Hb; [exact Hb|]. apply free_cons in Ha as [Hc Ha]. intros [|n]; cbn; [congruence|]. apply IH; assumption. }
      apply A; [exact Hb|]. intros [|n]; [discriminate|apply He]. }
  rewrite (stem_app b ext Hp Hd). destruct (contains "curve_" b) eqn:C; [|reflexivity].
  apply contains_iff in C as (x & y & E). exfalso. exact (Hn x y E).
Qed.

(** If "curve_" is not at the beginning, the first six characters of the name are cut off,
    not what precedes the site: "my_curve_S.txt" and "ABcurve_S.txt" lose part of the
    prefix or of the site. *)
Theorem C101_cuts_six_characters : forall x y a b pre e, String.length a = 6%nat -> (a ++ b)%string = (x ++ "curve_" ++ y)%string ->
  free_of "/" (a ++ b) -> free_of "." (a ++ b) ->
  output_file_name (Some (a ++ b)%string) pre e = Ok (pre ++ "_x_" ++ b ++ "." ++ e)%string.
Proof.
  intros x y a b pre e La E Hs Hd. unfold output_file_name. rewrite (base_name_free _ Hs), (stem_free _ Hd).
  rewrite (proj2 (contains_iff "curve_" (a ++ b)%string)) by (exists x, y; exact E). rewrite (drop_app 6 a b La). reflexivity.
Qed.
Theorem C101_site_name_refuted : exists x site, x <> "" /\ output_file_name (Some (x ++ "curve_" ++ site ++ ".txt")%string) "HH" "txt" <> Ok ("HH_x_" ++ site ++ ".txt")%string /\
  output_file_name (Some (x ++ "curve_" ++ site ++ ".txt")%string) "HH" "txt" = Ok "HH_x_e_Tokyo.txt".
Proof. exists "my", "Tokyo". split; [discriminate|]. split; [discriminate|reflexivity]. Qed.

(** Two files of one name in different directories, and "curve_S.txt" beside "S.txt", get
    the same output name. *)
Theorem C101_names_collide : forall dir dir' site ext ext' pre e, free_of "/" site -> free_of "/" ext -> free_of "." ext ->
  free_of "/" ext' -> free_of "." ext' ->
  output_file_name (Some (dir ++ "/curve_" ++ site ++ "." ++ ext)%string) pre e = output_file_name (Some (dir' ++ "/curve_" ++ site ++ "." ++ ext')%string) pre e /\
  (has_plain site -> (forall x y, site <> (x ++ "curve_" ++ y)%string) ->
   output_file_name (Some (dir ++ "/curve_" ++ site ++ "." ++ ext)%string) pre e = output_file_name (Some (dir' ++ "/" ++ site ++ "." ++ ext')%string) pre e).
Proof.
  intros dir dir' site ext ext' pre e Hs He Hd He' Hd'. destruct (C101_site_name dir site ext pre e Hs He Hd) as [-> _]. split.
  - destruct (C101_site_name dir' site ext' pre e Hs He' Hd') as [-> _]. reflexivity.
  - intros Hp Hn. rewrite C101_other_name by assumption. reflexivity.
Qed.

(** ** What is written *)
Section Opt.
Variable de : de_call -> loss -> list R.
Variable ea : ea_call -> loss -> list R.
Variable fmt : R -> R.

(** An object that does not come from a file needs names for what it saves; otherwise the
    call fails before anything is fitted. *)
Theorem C101_no_source_file : forall o sep v sh cs,
  ((v_fig v = true /\ v_fig_name v = None) \/ (v_txt v = true /\ v_txt_name v = None) ->
     get_all_HH_x de ea fmt o None sep v sh cs = (sh, Err ValueError) /\ get_all_H4_x de ea fmt o None sep v sh cs = (sh, Err ValueError)) .
Proof.
  intros o sep v sh cs H. unfold get_all_HH_x, get_all_H4_x, get_all, fig_name, txt_name, output_file_name.
  destruct H as [[-> ->]|[-> ->]]; [split; reflexivity|]. destruct (v_fig v), (v_fig_name v); split; reflexivity.
Qed.

(** The name a file gets: the one given, or the default one. *)
Definition chosen_name (given : option string) (filename : option string) (pre ext name : string) : Prop :=
  given = Some name \/ (given = None /\ output_file_name filename pre ext = Ok name).

Definition soil (hh : bool) : model := if hh then HH else MKZ.
Definition prefix_of (hh : bool) : string := if hh then "HH" else "H4".
Definition all_x (hh : bool) := if hh then get_all_HH_x de ea fmt else get_all_H4_x de ea fmt.

Lemma fit_all_forall (P : M_params.dict -> Prop) fit par sh ls qs : (forall h l d, snd (fit h l) = Ok d -> P d) ->
  snd (fit_all fit par sh ls) = Ok qs -> Forall P qs.
Proof.
  intros HP. unfold fit_all. destruct (existsb _ ls); [discriminate|]. destruct par; cbn [snd].
  - revert qs. induction ls as [|x ls IH]; intros qs E; cbn [map_res] in E; [injection E as <-; constructor|].
    apply bind_ok in E as (p & Ep & E). apply bind_ok in E as (ps & Eps & E). injection E as <-. constructor; [exact (HP _ _ _ Ep)|exact (IH _ Eps)].
  - revert sh qs. induction ls as [|x ls IH]; intros sh qs E; cbn [fit_serial snd] in E; [injection E as <-; constructor|].
    destruct (fit sh x) as [h1 [p|e]] eqn:Ex; [|discriminate]. specialize (IH h1). destruct (fit_serial fit h1 ls) as [h2 r]. cbn [snd] in *.
    apply bind_ok in E as (ps & -> & E). injection E as <-. constructor; [apply (HP sh x); rewrite Ex; reflexivity|apply IH; reflexivity].
Qed.
Lemma map_res_id {A} (f : A -> res A) l : Forall (fun x => f x = Ok x) l -> map_res f l = Ok l.
Proof. induction l as [|x l IH]; intros H; [reflexivity|]. apply Forall_cons_iff in H as [Hx Hl]. cbn [map_res]. rewrite Hx. cbn [bind]. rewrite (IH Hl). reflexivity. Qed.

Definition fitted_by (hh : bool) (o : options) : fitter :=
  if hh then fit_HH (hh_opt de ea (loop_options o)) else fit_H4 (mkz_opt de ea (loop_options o)).
Lemma all_x_eq hh o : all_x hh o = get_all fmt (soil hh) (prefix_of hh) (fitted_by hh o) o.
Proof. destruct hh; reflexivity. Qed.
Lemma fitted_complete hh o h l d : snd (fitted_by hh o h l) = Ok d ->
  param_init (mkeys (soil hh)) (Some d) = Ok d /\ complete (mkeys (soil hh)) d.
Proof.
  destruct hh; unfold fitted_by, fit_HH, fit_H4; destruct (fit_prepare h l) as [h1 [data|e]]; cbn [snd bind]; intros X; try discriminate; injection X as <-.
  - split; [exact (init_HH data (hh_opt de ea (loop_options o)))|]. split; [cbn [keys map fst combine seq HH_keys]; repeat constructor; cbn; intuition discriminate|intros k; cbn; tauto].
  - split; [exact (init_H4 data (mkz_opt de ea (loop_options o)))|]. split; [cbn [keys map fst combine seq HH_keys]; repeat constructor; cbn; intuition discriminate|intros k; cbn; tauto].
Qed.
Lemma all_x_inv hh o filename sep v sh cs ps w : snd (all_x hh o filename sep v sh cs) = Ok (ps, w) ->
  exists f t, fig_name filename (prefix_of hh) v = Ok f /\ txt_name filename (prefix_of hh) v = Ok t /\
    snd (fit_all (fitted_by hh o) (o_parallel o) sh (map c_raw cs)) = Ok ps /\ files fmt (soil hh) sep v f t ps = Ok w /\
    Forall (complete (mkeys (soil hh))) ps.
Proof.
  rewrite all_x_eq. unfold get_all. intros H.
  destruct (fig_name filename (prefix_of hh) v) as [f|] eqn:Ef; cbn [bind] in H; [|discriminate].
  destruct (txt_name filename (prefix_of hh) v) as [t|] eqn:Et; cbn [bind] in H; [|discriminate].
  match type of H with context [if ?b then _ else _] => destruct b; [discriminate|] end.
  destruct (fit_all (fitted_by hh o) (o_parallel o) sh (map c_raw cs)) as [sh1 r] eqn:Er. cbn [snd] in H.
  apply bind_ok in H as (qs & -> & H). apply bind_ok in H as (w' & Ew & H). apply bind_ok in H as (ps' & Ep & H). injection H as -> ->.
  assert (F : Forall (fun d => param_init (mkeys (soil hh)) (Some d) = Ok d /\ complete (mkeys (soil hh)) d) qs).
  { apply (fit_all_forall _ (fitted_by hh o) (o_parallel o) sh (map c_raw cs)); [|rewrite Er; reflexivity]. intros h l d. apply fitted_complete. }
  rewrite map_res_id in Ep by (eapply Forall_impl; [|exact F]; cbn; tauto). injection Ep as <-.
  exists f, t. split; [reflexivity|]. split; [reflexivity|]. split; [reflexivity|]. split; [exact Ew|]. eapply Forall_impl; [|exact F]. cbn. tauto.
Qed.

(** A figure is written exactly when it is both shown and saved; a text file exactly when it
    is asked for, with one column per layer holding the printed parameters in the order of
    the model, and it is written after the figure. *)
Theorem C101_written : forall hh o filename sep v sh cs ps w,
  snd (all_x hh o filename sep v sh cs) = Ok (ps, w) ->
  exists figs txts, w = figs ++ txts /\
    (v_show v = true /\ v_fig v = true -> exists n, figs = [WFig n] /\ chosen_name (v_fig_name v) filename (prefix_of hh) "png" n) /\
    (v_show v = false \/ v_fig v = false -> figs = []) /\
    (v_txt v = false -> txts = []) /\
    (v_txt v = true -> ps <> [] /\ exists n rows, chosen_name (v_txt_name v) filename (prefix_of hh) "txt" n /\
       txts = [WTxt n (match v_sep v with Some s => s | None => sep end) (List.length ps) rows] /\
       save_txt (soil hh) fmt ps = Ok (List.length ps, rows)).
Proof.
  intros hh o filename sep v sh cs ps w H. apply all_x_inv in H as (f & t & Ef & Et & _ & Ew & HC).
  assert (Sm : soil_model (soil hh)) by (destruct hh; [left|right]; reflexivity).
  assert (Ff : v_fig v = true -> exists n, f = Some n /\ chosen_name (v_fig_name v) filename (prefix_of hh) "png" n).
  { intros Hv. unfold fig_name in Ef. rewrite Hv in Ef. destruct (v_fig_name v) as [n|] eqn:En.
    - injection Ef as <-. exists n. split; [reflexivity|left; reflexivity].
    - apply bind_ok in Ef as (n & E & Ef). injection Ef as <-. exists n. split; [reflexivity|right; auto]. }
  assert (Ft : v_txt v = true -> exists n, t = Some n /\ chosen_name (v_txt_name v) filename (prefix_of hh) "txt" n).
  { intros Hv. unfold txt_name in Et. rewrite Hv in Et. destruct (v_txt_name v) as [n|] eqn:En.
    - injection Et as <-. exists n. split; [reflexivity|left; reflexivity].
    - apply bind_ok in Et as (n & E & Et). injection Et as <-. exists n. split; [reflexivity|right; auto]. }
  unfold files in Ew. set (figs := match f with Some n => if v_show v && v_fig v then [WFig n] else [] | None => [] end) in *.
  exists figs.
  assert (A : v_show v = true /\ v_fig v = true -> exists n, figs = [WFig n] /\ chosen_name (v_fig_name v) filename (prefix_of hh) "png" n).
  { intros [H1 H2]. destruct (Ff H2) as (n & -> & Hn). exists n. split; [|exact Hn]. unfold figs. rewrite H1, H2. reflexivity. }
  assert (B : v_show v = false \/ v_fig v = false -> figs = []).
  { intros H. unfold figs. destruct f; [|reflexivity]. destruct H as [-> | ->]; [|rewrite andb_false_r]; reflexivity. }
  clearbody figs. destruct (v_txt v) eqn:Hv.
  - destruct (Ft eq_refl) as (n & -> & Hn). apply bind_ok in Ew as ([c rows] & Es & Ew).
    destruct ps as [|p ps]; [discriminate|]. cbn [List.length Nat.eqb negb fst snd] in Ew. injection Ew as <-.
    eexists. split; [reflexivity|]. split; [exact A|]. split; [exact B|]. split; [discriminate|]. intros _. split; [discriminate|].
    destruct (C41_multilayer_file (soil hh) fmt (p :: ps) Sm HC ltac:(discriminate)) as (rows' & E' & _). rewrite Es in E'. injection E' as -> ->.
    exists n, rows'. auto.
  - injection Ew as <-. exists []. rewrite app_nil_r. split; [reflexivity|]. split; [exact A|]. split; [exact B|]. split; [reflexivity|discriminate].
Qed.

(** The text file is a parameter file of the same model: it is read back, every number
    through its printed form, if there are two layers or more; a file of one layer is
    refused. *)
Theorem C101_read_back : forall hh o filename sep v sh cs ps w n s c rows,
  snd (all_x hh o filename sep v sh cs) = Ok (ps, w) -> In (WTxt n s c rows) w ->
  c = List.length cs /\ List.length ps = List.length cs /\
  (List.length cs = 1%nat -> multi_from_file (soil hh) c rows = Err TypeError) /\
  ((2 <= List.length cs)%nat -> exists layers', multi_from_file (soil hh) c rows = Ok layers' /\
     Forall2 (fun d' d => forall k, M_params.dget k d' = option_map fmt (M_params.dget k d)) layers' ps).
Proof.
  intros hh o filename sep v sh cs ps w n s c rows H Hin.
  destruct (C101_written _ _ _ _ _ _ _ _ _ H) as (figs & txts & -> & HA & HB & HC & HD).
  apply all_x_inv in H as (f & t & _ & _ & Efit & _ & Comp).
  assert (Sm : soil_model (soil hh)) by (destruct hh; [left|right]; reflexivity).
  assert (L : List.length ps = List.length cs).
  { unfold fit_all in Efit. destruct (existsb _ _) in Efit; [discriminate|]. rewrite <- (map_length c_raw cs). clear -Efit. revert Efit. generalize (map c_raw cs). intros ls. destruct (o_parallel o); cbn [snd].
    - revert ps. induction ls as [|x ls IH]; intros ps E; cbn [map_res] in E; [injection E as <-; reflexivity|]. apply bind_ok in E as (p & _ & E). apply bind_ok in E as (qs & Eq & E). injection E as <-. cbn [List.length]. f_equal. apply IH, Eq.
    - revert sh ps. induction ls as [|x ls IH]; intros sh ps E; cbn [fit_serial snd] in E; [injection E as <-; reflexivity|].
      destruct (fitted_by hh o sh x) as [h1 [p|e]]; [|discriminate]. specialize (IH h1). destruct (fit_serial _ h1 ls) as [h2 r]. cbn [snd] in *. apply bind_ok in E as (qs & -> & E). injection E as <-. cbn [List.length]. f_equal. apply IH. reflexivity. }
  assert (T : In (WTxt n s c rows) txts).
  { apply in_app_or in Hin as [Hin|Hin]; [|exact Hin]. exfalso. destruct (v_show v) eqn:E1; [destruct (v_fig v) eqn:E2|].
    - destruct HA as (m & -> & _); [auto|]. destruct Hin as [Hin|[]]. discriminate.
    - rewrite HB in Hin by auto. destruct Hin.
    - rewrite HB in Hin by auto. destruct Hin. }
  destruct (v_txt v); [|rewrite HC in T by reflexivity; destruct T]. destruct HD as (Ne & n' & rows' & _ & -> & Es); [reflexivity|].
  destruct T as [T|[]]. injection T as _ _ <- <-. rewrite <- L.
  destruct (C41_multilayer_file (soil hh) fmt ps Sm Comp Ne) as (rows2 & E2 & R1 & R2). rewrite Es in E2. injection E2 as <-.
  split; [reflexivity|]. split; [reflexivity|]. split; [intros L1; rewrite L1; exact (R1 L1)|exact R2].
Qed.

(** No curves: nothing can be saved as text. *)
Theorem C101_no_layers : forall hh o filename sep v sh, (match o_cores o with Some k => (1 <= k)%Z | None => True end) -> filename <> None ->
  (v_txt v = true -> snd (all_x hh o filename sep v sh []) = Err ValueError) /\
  (v_txt v = false -> exists w, snd (all_x hh o filename sep v sh []) = Ok ([], w)).
Proof.
  intros hh o filename sep v sh Hc Hf. rewrite all_x_eq. unfold get_all.
  assert (O : forall pre e, exists n, output_file_name filename pre e = Ok n) by (intros pre e; destruct filename; [eexists; reflexivity|congruence]).
  assert (Ff : exists f, fig_name filename (prefix_of hh) v = Ok f).
  { unfold fig_name. destruct (v_fig v), (v_fig_name v); try (eexists; reflexivity). destruct (O (prefix_of hh) "png") as (n & ->). eexists. reflexivity. }
  assert (Ft : exists f, txt_name filename (prefix_of hh) v = Ok f).
  { unfold txt_name. destruct (v_txt v), (v_txt_name v); try (eexists; reflexivity). destruct (O (prefix_of hh) "txt") as (n & ->). eexists. reflexivity. }
  destruct Ff as (f & ->), Ft as (t & ->). cbn [bind].
  replace (match o_cores o with Some n => Z.ltb n 1 | None => false end) with false by (destruct (o_cores o); [symmetry; apply Z.ltb_ge; lia|reflexivity]).
  rewrite andb_false_r. unfold fit_all. cbn [map existsb]. destruct (o_parallel o); cbn [map_res fit_serial snd bind]; unfold files; (split; intros ->; [|eexists; reflexivity]);
    destruct hh; reflexivity.
Qed.
End Opt.

(** An MKZ fit of two layers read from "data/curve_KiK.txt", the optimiser answering zeros:
    saved as text; the figure, saved but not shown, is not written. *)
Example C101_names_instance :
  output_file_name (Some "data/curve_KiK.v2.txt") "H4" "txt" = Ok "H4_x_KiK.v2.txt" /\
  output_file_name (Some "data/soil.txt") "HH" "png" = Ok "HH_x_soil.png" /\
  output_file_name (Some "old.data/soil") "HH" "png" = Ok "HH_x_soil.png" /\
  free_of "/" "KiK" /\ has_plain "KiK".
Proof.
  repeat (split; [reflexivity|]). split.
  - intros n. do 3 (destruct n as [|n]; [discriminate|]). destruct n; discriminate.
  - exists 0%nat, "K"%char. split; [reflexivity|discriminate].
Qed.
Example C101_instance :
  let de := fun (c : de_call) (_ : loss) => map fst (de_bounds c) in
  let ea := fun (c : ea_call) (_ : loss) => repeat (ea_low c) (ea_size c) in
  let o := mkoptions true 800 100 0 6 (1/10) 0 false None in
  let v := mksaving false true None true None None in
  let sh : sheap := [[(1, 2); (3, 5)]; [(1, 2); (4, 7)]] in
  let ones := [("gamma_ref", 1); ("s", 1); ("beta", 1); ("Gmax", 1)] in
  snd (all_x de ea (fun x => x) false o (Some "data/curve_KiK.txt") "," v sh [mkcurve 0 0; mkcurve 1 1])
  = Ok ([ones; ones], [WTxt "H4_x_KiK.txt" "," 2 [[1; 1]; [1; 1]; [1; 1]; [1; 1]]]).
Proof.
  intros de ea o v sh ones. unfold all_x, get_all_H4_x, get_all.
  assert (R : forall c, In c [mkcurve 0 0; mkcurve 1 1] -> (c_raw c < List.length sh)%nat /\ fit_ready (sig_at sh (c_raw c))).
  { intros c [<-|[<-|[]]]; (split; [cbn; lia|]); (split; [discriminate|]); split; repeat constructor; cbn; lra. }
  pose proof (fit_all_results (fit_H4 (mkz_opt de ea (loop_options o))) (H4_result (mkz_opt de ea (loop_options o))) false sh _ ltac:(intros h l; unfold fit_H4; destruct (fit_prepare h l); reflexivity) R) as X.
  change (fig_name (Some "data/curve_KiK.txt") "H4" v) with (Ok (Some "H4_x_KiK.png")). change (txt_name (Some "data/curve_KiK.txt") "H4" v) with (Ok (Some "H4_x_KiK.txt")).
  cbn [bind o o_parallel o_cores andb]. cbn [o] in X. destruct (fit_all _ _ _ _) as [sh1 r]. cbn [snd] in X |- *. rewrite X.
  assert (Y : forall d, H4_result (mkz_opt de ea (loop_options o)) d = ones).
  { intros d. unfold H4_result, mkz_opt, ga_optimization. cbn [o loop_options o_scipy o_lo o_hi de de_bounds repeat map fst nth]. rewrite Rpower_O by lra. reflexivity. }
  cbn [map]. rewrite !Y. reflexivity.
Qed.
