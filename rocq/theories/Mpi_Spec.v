(** Schedules of several processes. *)
From Verif Require Import Text Mpi_Model.
From Coq Require Import NArith.

(** [s] is a complete interleaving of the programs [ps]: at every step any
    process that has something left may go. *)
Inductive interleave : list (list op) -> list op -> Prop :=
| il_nil ps : Forall (fun p => p = []) ps -> interleave ps []
| il_step ps1 o p ps2 s :
    interleave (ps1 ++ p :: ps2) s -> interleave (ps1 ++ (o :: p) :: ps2) (o :: s).

(** A run stopped (or crashed) anywhere. *)
Definition partial_run (ps : list (list op)) (s : list op) : Prop := exists s', interleave ps (s ++ s').

Definition complete (make : N -> option (list text)) (ns : list N) : Prop :=
  forall n, In n ns -> make n <> None.
