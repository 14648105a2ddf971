(** Model of the file-system effects of Nonlinear_Simulation.run
    (class_simulation.py:505-795), of os.makedirs and os.removedirs as it uses them, and
    of the files written by Simulation_Results (class_simulation_results.py:368-487).
    File contents, permissions, links and ".." are not modelled. *)
From Coq Require Import List Bool String Ascii Arith.
From Verif Require Import Base.
Import ListNotations.
Open Scope string_scope.
Open Scope list_scope.

(** Absolute paths, leaf first; [[]] is the root, which always exists. *)
Definition path := list string.
Inductive kind := File | Dir.
Definition fs := list (path * kind).
Definition path_eqb (p q : path) : bool := if list_eq_dec string_dec p q then true else false.
Definition look (f : fs) (p : path) : option kind :=
  match p with
  | [] => Some Dir
  | _ => match find (fun e => path_eqb (fst e) p) f with Some e => Some (snd e) | None => None end
  end.
Definition del (f : fs) (p : path) : fs := filter (fun e => negb (path_eqb (fst e) p)) f.
Definition put (f : fs) (p : path) (k : kind) : fs := (p, k) :: del f p.
Definition exists_ (f : fs) (p : path) : bool := match look f p with Some _ => true | None => false end.
Definition has_children (f : fs) (p : path) : bool :=
  existsb (fun e => match fst e with _ :: q => path_eqb q p | [] => false end) f.

(** A path name as the user writes it: components in order, "." and "" mean nothing. *)
Record name := mkname { n_abs : bool; n_comps : list string }.
Definition noise (c : string) : bool := String.eqb c "" || String.eqb c ".".
Definition resolve (cwd : path) (n : name) : path :=
  rev (filter (fun c => negb (noise c)) (n_comps n)) ++ (if n_abs n then [] else cwd).

(** The components of a name given as a string. *)
Fixpoint split_slash (s : string) : list string :=
  match s with
  | EmptyString => [""]
  | String c s' => if Ascii.eqb c "/" then "" :: split_slash s'
                   else match split_slash s' with x :: l => String c x :: l | [] => [String c ""] end
  end.
Definition name_of (s : string) : name := mkname (prefix "/" s) (split_slash s).

(** [sim_dir += '_'] *)
Definition with_suffix (n : name) : name :=
  mkname (n_abs n) (match rev (n_comps n) with [] => ["_"] | c :: r => rev ((c ++ "_")%string :: r) end).

(** [os.makedirs] *)
Fixpoint mkdirs (f : fs) (p : path) : res fs :=
  match p with
  | [] => Err FileExistsError
  | c :: q =>
      let! f1 := (if exists_ f q then Ok f else mkdirs f q) in
      match look f1 (c :: q), look f1 q with
      | Some _, _ => Err FileExistsError
      | None, Some Dir => Ok (put f1 (c :: q) Dir)
      | None, Some File => Err OSError_
      | None, None => Err FileNotFoundError
      end
  end.

(** [os.rmdir] *)
Definition rmdir (f : fs) (p : path) : res fs :=
  match p with
  | [] => Err OSError_
  | _ => match look f p with
         | Some Dir => if has_children f p then Err OSError_ else Ok (del f p)
         | Some File => Err OSError_
         | None => Err FileNotFoundError
         end
  end.

(** The loop of [os.removedirs]: [cs] are the remaining components of the name, last
    first, and [p] the directory they denote.  [rmdir('.')] always fails. *)
Fixpoint prune (f : fs) (cs : list string) (p : path) : fs :=
  match cs with
  | [] => f
  | c :: cs' =>
      if String.eqb c "." then f
      else if String.eqb c "" then prune f cs' p
      else match rmdir f p with Ok f' => prune f' cs' (tl p) | Err _ => f end
  end.
Fixpoint drop_noise (cs : list string) : list string :=
  match cs with c :: cs' => if noise c then drop_noise cs' else cs | [] => [] end.
Definition removedirs (f : fs) (cwd : path) (n : name) : res fs :=
  let p := resolve cwd n in
  let! f1 := rmdir f p in
  Ok (prune f1 (tl (drop_noise (rev (n_comps n)))) (tl p)).

(** ** The process *)
Record world := mkworld { w_fs : fs; w_cwd : path }.

(** [glob('*.dat')] *)
Definition has_suffix (suf s : string) : bool :=
  Nat.leb (String.length suf) (String.length s) &&
  String.eqb (substring (String.length s - String.length suf) (String.length suf) s) suf.
Definition is_dat (s : string) : bool := has_suffix ".dat" s && negb (prefix "." s).

(** A file of the working directory that [glob('*.dat')] lists (686, 735-737). *)
Definition dat_file (f : fs) (cwd p : path) : bool :=
  match p, look f p with x :: q, Some File => path_eqb q cwd && is_dat x | _, _ => false end.

Inductive step :=
| Compute                        (** no effect on files *)
| WriteIn (n : name) (file : string)
| Enter (n : name)               (** os.chdir(sim_dir) *)
| Return (p : path)              (** os.chdir(cwd) *)
| Kernel (outputs : list string) (** whatever files the Fortran kernel leaves in its directory *)
| Read (file : string)
| RemoveDat
| Remove (file : string)
| Save (n : name) (files : list string)
| RemoveDirs (n : name).

Definition write_file (f : fs) (dir : path) (file : string) : res fs :=
  match look f dir with
  | Some Dir => match look f (file :: dir) with Some Dir => Err OSError_ | _ => Ok (put f (file :: dir) File) end
  | Some File => Err OSError_
  | None => Err FileNotFoundError
  end.
Fixpoint write_files (f : fs) (dir : path) (files : list string) : res fs :=
  match files with [] => Ok f | x :: l => let! f1 := write_file f dir x in write_files f1 dir l end.

Definition exec (s : step) (w : world) : world * res unit :=
  let f := w_fs w in let cwd := w_cwd w in
  let upd (r : res fs) := match r with Ok f' => (mkworld f' cwd, Ok tt) | Err e => (w, Err e) end in
  match s with
  | Compute => (w, Ok tt)
  | WriteIn n file => upd (write_file f (resolve cwd n) file)
  | Enter n => match look f (resolve cwd n) with
               | Some Dir => (mkworld f (resolve cwd n), Ok tt)
               | Some File => (w, Err OSError_)
               | None => (w, Err FileNotFoundError)
               end
  | Return p => match look f p with
                | Some Dir => (mkworld f p, Ok tt)
                | Some File => (w, Err OSError_)
                | None => (w, Err FileNotFoundError)
                end
  | Kernel outs => upd (write_files f cwd outs)
  | Read file => match look f (file :: cwd) with Some File => (w, Ok tt) | _ => (w, Err FileNotFoundError) end
  | RemoveDat => (mkworld (filter (fun e => negb (dat_file f cwd (fst e))) f) cwd, Ok tt)
  | Remove file => match look f (file :: cwd) with
                   | Some File => (mkworld (del f (file :: cwd)) cwd, Ok tt)
                   | _ => (w, Err FileNotFoundError)
                   end
  | Save n files => (* results:368-370, 416-417: the directory is made when missing *)
      upd (let! f1 := (if exists_ f (resolve cwd n) then Ok f else mkdirs f (resolve cwd n)) in
           write_files f1 (resolve cwd n) files)
  | RemoveDirs n => upd (removedirs f cwd n)
  end.

(** Failures of the environment: [fail k = Some (late, e)] makes step [k] raise [e],
    after its effect when [late]. *)
Definition failures := nat -> option (bool * exn).

(** Runs the steps; also counts those completed. *)
Fixpoint run_steps (fail : failures) (k : nat) (l : list step) (w : world) : world * nat * res unit :=
  match l with
  | [] => (w, k, Ok tt)
  | s :: l' =>
      match fail k with
      | Some (false, e) => (w, k, Err e)
      | Some (true, e) =>
          match exec s w with (w', Ok _) => (w', S k, Err e) | (w', Err e') => (w', k, Err e') end
      | None =>
          match exec s w with (w', Ok _) => run_steps fail (S k) l' w' | (w', Err e) => (w', k, Err e) end
      end
  end.

(** Arguments of [run] and outcomes of the outside world. *)
Record request := mkrequest {
  q_dir : option name; q_show : bool; q_save_fig : bool; q_save_txt : bool; q_remove : bool;
  q_time : string;           (** the clock *)
  q_exe : string;            (** NLHH.exe, NLHH.mac or NLHH.unix *)
  q_out : list string;       (** files left by the kernel *)
  q_figs : list string; q_txts : list string }.

(** Lines 573-578. *)
Definition wanted (q : request) : name :=
  match q_dir q with Some n => n | None => mkname false ["."; ("nonlinear_sim_" ++ q_time q)%string] end.
Definition chosen (w : world) (q : request) : name :=
  if exists_ (w_fs w) (resolve (w_cwd w) (wanted q)) then with_suffix (wanted q) else wanted q.

Definition inputs (q : request) : list string :=
  [q_exe q; "tabk.dat"; "control.dat"; "profile.dat"; "incident.dat"; "curve.dat"; "HH_G.dat"; "HH_x.dat"].
Definition outputs : list string :=
  ["node_depth.dat"; "layer_depth.dat"; "out_a.dat"; "out_v.dat"; "out_d.dat"; "out_gamma.dat"; "out_tau.dat"].

(** Lines 581-686, up to the change of directory; 688-756, inside; 760-795, after. *)
Definition before (q : request) (n : name) : list step :=
  Compute :: Compute :: Compute :: map (WriteIn n) (inputs q).
Definition inside (q : request) : list step :=
  Compute :: Kernel (q_out q) :: map Read outputs ++ [RemoveDat; Remove (q_exe q); Compute].
Definition after (q : request) (n : name) : list step :=
  Compute :: (if q_show q then [if q_save_fig q then Save n (q_figs q) else Compute] else []) ++
  (if q_save_txt q then [Save n (q_txts q)] else []) ++
  (if negb (q_save_txt q) && negb (q_save_fig q) && q_remove q then [RemoveDirs n] else []).
Definition program (q : request) (cwd : path) (n : name) : list step :=
  before q n ++ [Enter n] ++ inside q ++ [Return cwd] ++ after q n.

(** The whole call. [None] for the count: it raised before the first step. *)
Definition nonlinear_run (w : world) (q : request) (fail : failures) : world * option nat * res unit :=
  let n := chosen w q in
  match mkdirs (w_fs w) (resolve (w_cwd w) n) with
  | Err e => (w, None, Err e)
  | Ok f => match run_steps fail 0 (program q (w_cwd w) n) (mkworld f (w_cwd w)) with (w', k, r) => (w', Some k, r) end
  end.
