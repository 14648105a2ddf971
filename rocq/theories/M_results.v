(** Model of class_simulation_results.py:112-217 (the constructor), of the [run] methods of
    class_simulation.py around the simulations proper, and of class_simulation.py:84-139. *)
From Coq Require Import Reals List Bool ZArith Lia Lra String.
From Coquelicot Require Import Complex.
From Coq Require Import List.
From Verif Require Import Base M_generic M_profile M_vs_profile M_motion M_interp M_dft M_signal M_linear M_simlin M_eqlin M_amplify M_freqspec.
Import ListNotations.
Open Scope string_scope.
Open Scope list_scope.
Open Scope R_scope.

(** ** Arguments *)
(** An argument that has to be an instance of a class, possibly [None]; any other object is
    [Wrong]. *)
Inductive arg (A : Type) := Inst (a : A) | PyNone | Wrong.
Arguments Inst {A} a.
Arguments PyNone {A}.
Arguments Wrong {A}.
(** A two-dimensional array, as a list of columns of [a_n] rows. *)
Record arr := mkarr { a_n : nat; a_cols : list (list R) }.

(** helper_generic.py:346-364 [assert_2D_numpy_array] followed by the comparison of shapes;
    [Wrong] is anything but a two-dimensional array. *)
Definition of_shape (x : arg arr) (n c : nat) : res unit :=
  match x with
  | PyNone => Ok tt
  | Wrong => Err TypeError
  | Inst a => if Nat.eqb (a_n a) n && Nat.eqb (List.length (a_cols a)) c then Ok tt else Err AssertionError
  end.
Definition is_2d (x : arg arr) : res unit := match x with Inst _ => Ok tt | _ => Err TypeError end.

(** Attributes of a [Simulation_Results]. *)
Record results := mkresults {
  rr_input : motion; rr_surface : motion; rr_profile : vsobj;
  rr_max_avd : option arr; rr_max_gt : option arr;
  rr_tf : option fspec; rr_tf_smooth : option fspec;
  rr_accel : option arr; rr_veloc : option arr; rr_displ : option arr; rr_stress : option arr; rr_strain : option arr;
  rr_name : string; rr_dir : string }.

Definition given {A} (x : arg A) : option A := match x with Inst a => Some a | _ => None end.
Definition required {A} (x : arg A) : res A := match x with Inst a => Ok a | _ => Err TypeError end.
Definition optional {A} (x : arg A) : res (option A) := match x with Inst a => Ok (Some a) | PyNone => Ok None | Wrong => Err TypeError end.

(** class_simulation_results.py:112-217; [time] is the string of the current time. *)
Definition results_init (time : string) (input surface : arg motion) (profile : arg vsobj) (max_avd max_gt : arg arr)
    (tf tf_smooth : arg fspec) (accel veloc displ stress strain : arg arr) (name dir : option string) : res results :=
  let! i := required input in
  let! s := required surface in
  let! p := required profile in
  let! t := optional tf in
  let! ts := optional tf_smooth in
  let n := o_nlayer p in
  let T := m_npts s in
  let! _ := of_shape accel T (n + 1) in
  let! _ := of_shape veloc T (n + 1) in
  let! _ := of_shape displ T (n + 1) in
  let! _ := of_shape stress T n in
  let! _ := of_shape strain T n in
  let! mx :=
    match max_avd, max_gt with
    | PyNone, _ | _, PyNone => Ok (None, None)
    | _, _ =>
      let! _ := is_2d max_avd in
      let! _ := is_2d max_gt in
      let! _ := of_shape max_avd (n + 1) 4 in
      let! _ := of_shape max_gt n 3 in
      Ok (given max_avd, given max_gt)
    end in
  Ok (mkresults i s p (fst mx) (snd mx) t ts (given accel) (given veloc) (given displ) (given stress) (given strain)
        (match name with Some x => x | None => "accel_" ++ time end)
        (match dir with Some x => x | None => "./sim_" ++ time end))%string.

(** ** Simulation.__init__, class_simulation.py:84-139 *)
(** A parameter argument: [None], an object of one of the two parameter classes, or any other
    object, whose class is a number. *)
Inductive pararg := PANone | PAHH | PAMKZ | PAOther (cls : nat).
Definition pararg_eqb (a b : pararg) : bool :=
  match a, b with
  | PANone, PANone | PAHH, PAHH | PAMKZ, PAMKZ => true
  | PAOther i, PAOther j => Nat.eqb i j
  | _, _ => false
  end.
Definition not_param (a : pararg) : bool := match a with PAOther _ => true | _ => false end.
(** [profile_ok], [motion_ok]: instances of the classes required; [bnd] is [None] for any
    other string; [curves]: [None], a set of curves or something else. *)
Definition simulation_init (profile_ok motion_ok : bool) (bnd : option boundary) (G xi : pararg) (curves : arg unit) : res unit :=
  if negb profile_ok then Err TypeError
  else if negb motion_ok then Err TypeError
  else match bnd with
  | None => Err ValueError
  | Some _ =>
    if negb (pararg_eqb G xi) then Err TypeError
    else if not_param G then Err TypeError
    else if not_param xi then Err TypeError
    else match curves with Wrong => Err TypeError | _ => Ok tt end
  end.
(** class_simulation.py:321-339: [Equiv_Linear_Simulation.__init__]; [mats] are the material
    numbers of the profile, [nc] the number of curves. *)
Definition equiv_init (profile_ok motion_ok : bool) (bnd : option boundary) (curves : arg nat) (mats : list R) : res unit :=
  match curves with
  | PyNone => Err TypeError
  | _ =>
    let! _ := simulation_init profile_ok motion_ok bnd PANone PANone (match curves with Inst _ => Inst tt | PyNone => PyNone | Wrong => Wrong end) in
    check_layer_count mats None None (given curves)
  end.
(** class_simulation.py:484-506: [Nonlinear_Simulation.__init__]; [nG], [nxi] are the numbers
    of layers of the parameters. *)
Definition nonlinear_init (profile_ok motion_ok : bool) (bnd : option boundary) (G xi : pararg) (nG nxi : nat) (mats : list R) : res unit :=
  match G with PANone => Err TypeError | _ =>
  match xi with PANone => Err TypeError | _ =>
    let! _ := simulation_init profile_ok motion_ok bnd G xi PyNone in
    check_layer_count mats (Some nG) (Some nxi) None
  end end.

(** ** The run methods *)
(** Arrays of profiles and of motions in memory. *)
Definition mem := (heap * sheap)%type.
Definition row_cells (r : row) : list R := r_h r :: r_vs r :: r_rest r.
Definition time_by_layer (n : nat) (cols : list (list R)) : arg arr := Inst (mkarr n cols).

(** class_simulation.py:234-265 and 393-421: the results object.  Arguments are evaluated in
    order: the motion, the profile, the transfer function.  The matrices have as many rows as
    the surface motion. *)
Definition wrap (time : string) (w : mem) (input : motion) (r : simres) (name dir : option string) : mem * res results :=
  let (h, sh) := w in
  let '(sh1, rm) := gm_init (sh ++ [sr_surface r]) (List.length sh) U_m T_accel in
  match rm with
  | Err e => ((h, sh1), Err e)
  | Ok m =>
    let '(h1, rv) := vs_init (h ++ [mktable false 5 (map row_cells (sr_profile r))]) (List.length h) D_1 R_g false 3 in
    ((h1, sh1),
     let! o := rv in
     let! f1 := get (sr_freq r) 1 in
     let! f0 := get (sr_freq r) 0 in
     let! sp := fs_init (CD1 (sr_tf r)) (Some (f1 - f0)) None in
     let T := List.length (sr_surface r) in
     let mx := sr_max_avd r in
     let mg := sr_max_gt r in
     results_init time (Inst input) (Inst m) (Inst o)
       (Inst (mkarr (List.length mx) [map fst mx; map (fun x => fst (fst (snd x))) mx; map (fun x => snd (fst (snd x))) mx; map (fun x => snd (snd x)) mx]))
       (Inst (mkarr (List.length mg) [map fst mg; map (fun x => fst (snd x)) mg; map (fun x => snd (snd x)) mg]))
       (Inst sp) PyNone
       (time_by_layer T (sr_a r)) (time_by_layer T (sr_v r)) (time_by_layer T (sr_d r))
       (time_by_layer T (sr_tau r)) (time_by_layer T (sr_gamma r)) name dir)
  end.

(** class_simulation.py:226-291 [Linear_Simulation.run]; figures, messages and text files are
    left out.  [None] when the surface motion is not finite.  Without [every_layer] neither the
    name nor the directory is passed on. *)
Definition linear_run (time : string) (w : mem) (p : vsobj) (input : motion) (b : boundary)
    (every_layer deconv : bool) (name dir : option string) : mem * res (option results) :=
  let (h, sh) := w in
  let t := tbl h (o_tbl p) in
  let s := sig_at sh (m_accel input) in
  if every_layer then
    match linear t s b with
    | Err e => (w, Err e)
    | Ok r => let '(w', x) := wrap time w input r name dir in (w', let! y := x in Ok (Some y))
    end
  else
    match linear_site_resp t s (Some (match b with Elastic => true | Rigid => false end)) deconv with
    | Err e => (w, Err e)
    | Ok (None, _) => (w, Ok None)
    | Ok (Some y, (freq, z)) =>
      match (let! f1 := get freq 1 in let! f0 := get freq 0 in fs_init (CD1 z) (Some (f1 - f0)) None) with
      | Err e => (w, Err e)
      | Ok sp =>
        let '(sh1, rm) := gm_init (sh ++ [y]) (List.length sh) U_m T_accel in
        ((h, sh1),
         let! m := rm in
         let! x := results_init time (Inst input) (Inst m) (Inst p) PyNone PyNone (Inst sp) PyNone PyNone PyNone PyNone PyNone PyNone None None in
         Ok (Some x))
      end
    end.

(** class_simulation.py:381-434 [Equiv_Linear_Simulation.run], with the default tolerance,
    strain ratio and number of iterations (helper_simulations.py:224-233). *)
Definition equiv_run (time : string) (w : mem) (p : vsobj) (input : motion) (cm : cmat) (b : boundary)
    (verbose : bool) (name dir : option string) : mem * res results :=
  let (h, sh) := w in
  match equiv_linear (tbl h (o_tbl p)) (sig_at sh (m_accel input)) cm b (75 / 1000) (65 / 100) 10 verbose with
  | Err e => (w, Err e)
  | Ok r => wrap time w input r name dir
  end.

(** class_simulation.py:614-615: the profile written for the kernel, in g/cm^3. *)
Definition divide_density (r : row) : row :=
  mkrow (r_h r) (r_vs r) (match r_rest r with xi :: rho :: m => xi :: rho / 1000 :: m | l => l end).
Definition kernel_profile (h : heap) (p : vsobj) : res (list row) :=
  let! q := stratify (map row_of (o_rows h p)) in Ok (map divide_density q).
(** class_simulation.py:715-795: the part of [Nonlinear_Simulation.run] after the kernel; the
    profile has been made of [new_profile].  The files read are lists of columns of numbers; [np.genfromtxt]
    makes a two-dimensional array only of a file of at least two lines of at least two
    numbers.  Simplifications: the files of depths hold one number per node and per layer; the two transfer
    functions are arguments; a file of accelerations in one column only fails earlier, at line 741. *)
Definition genfromtxt (f : arr) : arg arr :=
  if Nat.leb 2 (a_n f) && Nat.leb 2 (List.length (a_cols f)) then Inst f else Wrong.
Record kernel_files := mkkernel { kf_zn : list R; kf_zl : list R; kf_a : arr; kf_v : arr; kf_d : arr; kf_gamma : arr; kf_tau : arr }.
(** Lines 734-741. *)
Definition col_max (f : arr) : list R := map (fun c => fold_left Rmax (map Rabs c) 0) (a_cols f).
(** [np.column_stack] of lists of one length. *)
Definition column_stack (cols : list (list R)) : res arr :=
  match cols with
  | [] => Err ValueError
  | c :: l => if forallb (fun x => Nat.eqb (List.length x) (List.length c)) l then Ok (mkarr (List.length c) cols) else Err ValueError
  end.
Definition surface_of (t : list R) (a : arr) : res signal :=
  match a_cols a with
  | [] => Err IndexError
  | c :: _ => if Nat.eqb (List.length c) (List.length t) then Ok (combine t c) else Err ValueError
  end.
Definition nonlinear_results (time : string) (w : mem) (input : motion) (q : list row) (k : kernel_files)
    (tf tfs : fspec) (name : option string) (dir : string) : mem * res results :=
  let (h, sh) := w in
  match (let! avd := column_stack [kf_zn k; col_max (kf_a k); col_max (kf_v k); col_max (kf_d k)] in
         let! gt := column_stack [kf_zl k; col_max (kf_gamma k); col_max (kf_tau k)] in
         let! y := surface_of (times (sig_at sh (m_accel input))) (kf_a k) in
         Ok (avd, gt, y)) with
  | Err e => (w, Err e)
  | Ok (avd, gt, y) =>
    let '(sh1, rm) := gm_init (sh ++ [y]) (List.length sh) U_m T_accel in
    match rm with
    | Err e => ((h, sh1), Err e)
    | Ok m =>
      let '(h1, rv) := vs_init (h ++ [mktable false 5 (map row_cells q)]) (List.length h) D_1 R_g false 3 in
      ((h1, sh1),
       let! o := rv in
       results_init time (Inst input) (Inst m) (Inst o) (Inst avd) (Inst gt) (Inst tf) (Inst tfs)
         (genfromtxt (kf_a k)) (genfromtxt (kf_v k)) (genfromtxt (kf_d k)) (genfromtxt (kf_tau k)) (genfromtxt (kf_gamma k)) name (Some dir))
    end
  end.
