(** The parallel writer of sampled ACE files.
    Source: /repo/ASAPy/XsecSampler.py:721-804 (write_sampled_data), 15-19 (rank
    and size).  Building the contents of one sampled file is the pure function
    [make] (AceEdit_Model.v, AceText_Model.v model its parts); here the division
    of work, the file operations and their interleaving are modelled.  Files
    are truncated on open and then appended to piece by piece. *)
From Verif Require Import Text Dec.
From Coq Require Import NArith.
Local Open Scope list_scope.

Inductive op := Trunc (f : text) | App (f : text) (c : text).
Definition op_file (o : op) : text := match o with Trunc f => f | App f _ => f end.

Definition fs := text -> option text.
Definition do_op (s : fs) (o : op) : fs :=
  match o with
  | Trunc f => fun g => if eqt g f then Some [] else s g
  | App f c => fun g => if eqt g f then option_map (fun x => x ++ c) (s g) else s g
  end.
Definition exec (s : fs) (os : list op) : fs := fold_left do_op os s.

(** XsecSampler.py:792 [output_formatter.format(sample_number)] with a formatter
    ending in '_{0}' (line 936), and the csv name of line 804. *)
Definition sample_name (prefix : text) (n : N) : text := prefix ++ decN n.
Definition csv_name (prefix : text) (mt : N) : text := prefix ++ decN mt ++ str "_samples.csv".

Section Writer.
Variable prefix : text.
(** Pieces written for sample [n], or [None] when an exception is raised while
    building it (lines 739-792; e.g. KeyError at line 743). *)
Variable make : N -> option (list text).
(** The csv files rank 0 writes at the end (lines 796-804). *)
Variable csvs : list (N * list text).

Definition file_ops (f : text) (pieces : list text) : list op := Trunc f :: map (App f) pieces.

(** Lines 735-794: the loop over the sample numbers; the flag tells whether it
    ran to its end. *)
Fixpoint loop (size rank : N) (ns : list N) : list op * bool :=
  match ns with
  | [] => ([], true)
  | n :: r =>
      if N.eqb (n mod size) rank then
        match make n with
        | None => ([], false)
        | Some ps => let (os, ok) := loop size rank r in (file_ops (sample_name prefix n) ps ++ os, ok)
        end
      else loop size rank r
  end.

(** Lines 796-804. *)
Definition csv_ops : list op := concat (map (fun p => file_ops (csv_name prefix (fst p)) (snd p)) csvs).

Definition rank_prog (size rank : N) (ns : list N) : list op :=
  let (os, ok) := loop size rank ns in
  if ok && N.eqb rank 0 then os ++ csv_ops else os.

(** All ranks of a run with [size] processes. *)
Definition programs (size : nat) (ns : list N) : list (list op) :=
  map (fun r => rank_prog (N.of_nat size) (N.of_nat r) ns) (seq 0 size).

Definition serial (ns : list N) : list op := rank_prog 1 0 ns.
End Writer.

(** Line 743: a sample is available when every MT's table has its number. *)
Definition available (tables : list (list N)) (n : N) : bool :=
  forallb (fun t => existsb (N.eqb n) t) tables.
