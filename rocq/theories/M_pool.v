(** Model of [multiprocessing.Pool.map] as it is used by the package: the tasks are
    finished in some order chosen by the scheduler; each result is stored in the slot
    of its task and the filled slots are returned. *)
From Coq Require Import List.
From Verif Require Import M_vs_profile.
Import ListNotations.

(** One delivery: task [i] has finished. *)
Definition deliver {A B} (f : A -> B) (tasks : list A) (slots : list (option B)) (i : nat) : list (option B) :=
  match nth_error tasks i with Some x => set_nth i (Some (f x)) slots | None => slots end.

(** [p.map(f, tasks)] under the completion order [order]
    (helper_site_response.py:641-660, class_gof_scores.py, class_batch_simulation.py:178-185,
    class_hh_calibration.py, class_curves.py). *)
Definition pool_map {A B} (f : A -> B) (tasks : list A) (order : list nat) : list (option B) :=
  fold_left (deliver f tasks) order (map (fun _ => None) tasks).

(** A completion order of [n] tasks: every task finishes exactly once. *)
Definition schedule (n : nat) (order : list nat) : Prop :=
  NoDup order /\ forall i, In i order <-> i < n.
