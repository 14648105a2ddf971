(** Model of class_batch_simulation.py: Batch_Simulation (57-240).
    A simulation object is known by its class and by what its [run] method does; [run] acts on
    the state of the process ([St], e.g. files and working directory) and returns a result or
    raises.  Simplified: every task of a pool starts from a copy of the state at the call (in the
    code, tasks of the same worker follow each other in one process).
    Not modelled: printing, the forkserver context (86-100, the same [map] is used), pickling. *)
From Coq Require Import List Bool String Ascii Arith ZArith.
From Verif Require Import Base M_pool.
Import ListNotations.
Open Scope string_scope.
Open Scope list_scope.

(** ** Python strings *)
(** [str(n)]: decimal digits, most significant first. *)
Fixpoint digits_low (fuel n : nat) : list nat :=
  match fuel with
  | O => []
  | S fuel' => if n <? 10 then [n] else (n mod 10) :: digits_low fuel' (n / 10)
  end%nat.
Definition digits (n : nat) : list nat := rev (digits_low (S n) n).
Definition digit_char (d : nat) : ascii := ascii_of_nat (48 + d).
Definition text (ds : list nat) : string := string_of_list_ascii (map digit_char ds).
Definition str (n : nat) : string := text (digits n).
(** [s.rjust(width, '0')] *)
Fixpoint repeat_char (c : ascii) (n : nat) : string :=
  match n with O => EmptyString | S m => String c (repeat_char c m) end.
Definition rjust (width : nat) (s : string) : string := append (repeat_char "0"%char (width - String.length s)) s.
(** [os.path.join(a, b)] on posix, for [b] not starting with a slash *)
Definition last_char (s : string) : option ascii := String.get (String.length s - 1) s.
Definition join (a b : string) : string :=
  match last_char a with
  | None => b
  | Some c => if Ascii.eqb c "/" then append a b else append a (append "/" b)
  end.

(** ** Keyword dictionaries *)
Inductive value := VBool (b : bool) | VStr (s : string) | VOther (id : nat).
Definition truthy (v : value) : bool :=
  match v with VBool b => b | VStr "" => false | _ => true end.
Definition dict := list (string * value).
Fixpoint dict_get (k : string) (d : dict) : option value :=
  match d with [] => None | (k', v) :: d' => if String.eqb k k' then Some v else dict_get k d' end.
(** [d.update({k: v})] *)
Fixpoint dict_set (k : string) (v : value) (d : dict) : dict :=
  match d with
  | [] => [(k, v)]
  | (k', v') :: d' => if String.eqb k k' then (k, v) :: d' else (k', v') :: dict_set k v d'
  end.

(** ** Classes *)
Inductive cls := Linear | Equiv | Nonlinear | Foreign | SubOf (c : cls) (id : nat).
Fixpoint cls_eqb (a b : cls) : bool :=
  match a, b with
  | Linear, Linear | Equiv, Equiv | Nonlinear, Nonlinear | Foreign, Foreign => true
  | SubOf c i, SubOf d j => cls_eqb c d && Nat.eqb i j
  | _, _ => false
  end.
(** [isinstance(x, c)] for [x] of class [a] *)
Fixpoint isinstance (a c : cls) : bool :=
  cls_eqb a c || match a with SubOf b _ => isinstance b c | _ => false end.

(** Parameters of the [run] methods (class_simulation.py:174-185, 341-350, 508-518); a
    subclass inherits its base's. *)
Fixpoint run_params (c : cls) : list string :=
  match c with
  | Linear => ["every_layer"; "deconv"; "show_fig"; "save_fig"; "motion_name"; "save_txt"; "save_full_time_history"; "output_dir"; "verbose"]
  | Equiv => ["verbose"; "show_fig"; "save_fig"; "motion_name"; "save_txt"; "save_full_time_history"; "output_dir"]
  | Nonlinear => ["sim_dir"; "motion_name"; "save_txt"; "save_full_time_history"; "show_fig"; "save_fig"; "remove_sim_dir"; "verbose"]
  | Foreign => []
  | SubOf b _ => run_params b
  end.

Section Batch.
Context {St R : Type}.

Record sim := mksim { s_cls : cls; s_run : dict -> St -> St * res R }.

(** [sim_obj.run ** options]: an unknown keyword is rejected before the body runs. *)
Definition call (s : sim) (d : dict) (st : St) : St * res R :=
  if forallb (fun e => existsb (String.eqb (fst e)) (run_params (s_cls s))) d then s_run s d st else (st, Err TypeError).

(** The argument of the constructor: a list or something else. *)
Inductive sims_arg := AList (l : list sim) | ANotList.

(** Lines 57-90; the attributes [list_of_simulations] and [sim_type]. *)
Record batch := mkbatch { b_sims : list sim; b_type : cls }.
Definition batch_init (a : sims_arg) : res batch :=
  match a with
  | ANotList => Err TypeError
  | AList [] => Err ValueError
  | AList (s0 :: l) =>
      assert! existsb (isinstance (s_cls s0)) [Linear; Equiv; Nonlinear] else TypeError in
      assert! forallb (fun s => isinstance (s_cls s) (s_cls s0)) (s0 :: l) else TypeError in
      Ok (mkbatch (s0 :: l) (s_cls s0))
  end.

(** Lines 222-228. *)
Definition dir_name (i n_digits : nat) : string := rjust n_digits (str i).
Definition set_dir (t : cls) (base : string) (i n_digits : nat) (d : dict) : dict :=
  dict_set (if cls_eqb t Nonlinear then "sim_dir" else "output_dir") (VStr (join base (dir_name i n_digits))) d.

(** _run_single_sim, lines 198-240: the dictionary after the call, the state and the outcome. *)
Definition run_single (b : batch) (i n_digits : nat) (base : string) (catch : bool) (d : dict) (st : St)
  : dict * St * res (option R) :=
  let d1 := set_dir (b_type b) base i n_digits d in
  match nth_error (b_sims b) i with
  | None => (d1, st, Err IndexError)
  | Some s =>
      match call s d1 st with
      | (st1, Ok r) => (d1, st1, Ok (Some r))
      | (st1, Err ValueError) => if catch then (d1, st1, Ok None) else (d1, st1, Err ValueError)
      | (st1, Err e) => (d1, st1, Err e)
      end
  end.

(** The serial loop, lines 154-158, over the indices [is]. *)
Fixpoint serial (b : batch) (nd : nat) (base : string) (catch : bool) (is_ : list nat) (d : dict) (st : St)
  : dict * St * res (list (option R)) :=
  match is_ with
  | [] => (d, st, Ok [])
  | i :: is' =>
      match run_single b i nd base catch d st with
      | (d1, st1, Err e) => (d1, st1, Err e)
      | (d1, st1, Ok r) =>
          match serial b nd base catch is' d1 st1 with
          | (d2, st2, Ok rs) => (d2, st2, Ok (r :: rs))
          | (d2, st2, Err e) => (d2, st2, Err e)
          end
      end
  end.

(** [Pool.map]: the tasks are cut into chunks of [c]; a chunk is run in order by one worker
    and stops at the first exception; the exception of the first chunk to fail is raised. *)
Fixpoint chunks {A} (fuel c : nat) (l : list A) : list (list A) :=
  match fuel, l with
  | _, [] => []
  | O, _ => []
  | S f, _ => firstn c l :: chunks f c (skipn c l)
  end.
Definition chunk_size (n_tasks workers : nat) : nat :=
  let m := (workers * 4)%nat in (n_tasks / m + (if n_tasks mod m =? 0 then 0 else 1))%nat.
(** Results delivered in the order [order] of the chunks. *)
Definition first_failure {B} (delivered : list (option (res B))) (order : list nat) : option exn :=
  match find (fun i => match nth_error delivered i with Some (Some (Err _)) => true | _ => false end) order with
  | Some i => match nth_error delivered i with Some (Some (Err e)) => Some e | _ => None end
  | None => None
  end.
Definition pool_run {A B} (f : A -> res B) (tasks : list A) (c : nat) (order : list nat) : res (list B) :=
  let delivered := pool_map (map_res f) (chunks (List.length tasks) c tasks) order in
  match first_failure delivered order with
  | Some e => Err e
  | None => Ok (List.concat (map (fun o => match o with Some (Ok l) => l | _ => [] end) delivered))
  end.

(** [plot] of a result, and the clock. *)
Variable plot : R -> bool -> res unit.

(** Lines 189-192. *)
Fixpoint plot_all (save : bool) (rs : list (option R)) : res unit :=
  match rs with
  | [] => Ok tt
  | None :: _ => Err AttributeError
  | Some r :: rs' => let! _ := plot r save in plot_all save rs'
  end.

Definition default_base (time : string) : string := append "./batch_sim_" time.

(** Lines 102-196.  [cpus] is the number of processors, [order] the order in which chunks finish;
    returns the caller's dictionary, the caller's state and the outcome. *)
Definition batch_run (b : batch) (parallel : bool) (n_cores : option Z) (base : option string) (catch : bool)
    (options : option dict) (time : string) (cpus : nat) (order : list nat) (st : St)
  : dict * St * res (list (option R)) :=
  let d := match options with Some d => d | None => [] end in
  let N := List.length (b_sims b) in
  let nd := String.length (str N) in
  let base := match base with Some s => s | None => default_base time end in
  if negb parallel then serial b nd base catch (seq 0 N) d st
  else
    match (match n_cores with Some z => if (z <? 1)%Z then None else Some (Z.to_nat z) | None => Some cpus end) with
    | None => (d, st, Err ValueError)   (* mp.Pool *)
    | Some workers =>
        (d, st,
         let! rs := pool_run (fun i => snd (run_single b i nd base catch d st)) (seq 0 N) (chunk_size N workers) order in
         if match dict_get "show_fig" d with Some v => truthy v | None => false end
         then let! _ := plot_all (match dict_get "save_fig" d with Some v => truthy v | None => false end) rs in Ok rs
         else Ok rs)
    end.
End Batch.
Arguments sim : clear implicits.
Arguments batch : clear implicits.
Arguments sims_arg : clear implicits.
