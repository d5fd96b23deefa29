(** Command lines as a user writes them: arguments, options, spellings of options; lines of
    a shell script. *)
From Verif Require Import Text Dec PyNum Cli_Model.
From Coq Require Import ZArith.
Local Open Scope list_scope.

(** The options of the sampling program. *)
Definition options : list text :=
  map str ["-h"; "--help"; "-mts"; "-mpiproc"; "-num_oversamples"; "--make_plots"; "--writepbs";
           "--waitforjob"; "--subpbs"; "-distribution"; "--plot-only"]%string.
(** [u] spells the option [n]: the name, or the beginning of no other name. *)
Definition spells_of (options : list text) (u n : text) : Prop :=
  In n options /\ 2 <= length u /\ (exists r, n = u ++ r) /\
  (u = n \/ forall m r, In m options -> m = u ++ r -> m = n).
Definition spells : text -> text -> Prop := spells_of options.
(** A negative number, integral or with a fraction. *)
Definition below_zero (t : text) : Prop :=
  exists ds fs, (forall c, In c (ds ++ fs) -> is_digit c = true) /\
    ((t = "-"%char :: ds /\ ds <> []) \/ (t = "-"%char :: ds ++ "."%char :: fs /\ fs <> [])).
(** Text that cannot be taken for an option. *)
Definition bare (t : text) : Prop := (forall r, t <> "-"%char :: r) \/ (exists z, t = decZ z) \/ below_zero t.

(** One thing said on the command line. *)
Inductive item :=
| Given (t : text) | Mts (u : text) (l : list Z) | Mpi (u : text) (z : Z) | Over (u : text) (z : Z)
| Plots (u : text) | WritePbs (u : text) | WaitFor (u t : text) | Submit (u : text)
| Dist (u t : text) | PlotOnly (u : text).
Definition says (i : item) : list text :=
  match i with
  | Given t => [t]
  | Mts u l => u :: map decZ l
  | Mpi u z | Over u z => [u; decZ z]
  | Plots u | WritePbs u | Submit u | PlotOnly u => [u]
  | WaitFor u t | Dist u t => [u; t]
  end.
Definition proper (i : item) : Prop :=
  match i with
  | Given t => bare t
  | Mts u l => spells u (str "-mts") /\ l <> []
  | Mpi u _ => spells u (str "-mpiproc")
  | Over u _ => spells u (str "-num_oversamples")
  | Plots u => spells u (str "--make_plots")
  | WritePbs u => spells u (str "--writepbs")
  | WaitFor u t => spells u (str "--waitforjob") /\ bare t
  | Submit u => spells u (str "--subpbs")
  | Dist u t => spells u (str "-distribution") /\
      In t (map str ["normal"; "lognormal"; "uncorrelated"; "uniform"; "loguncorrelated"]%string)
  | PlotOnly u => spells u (str "--plot-only")
  end.
(** No argument right after the reactions. *)
Fixpoint apart (l : list item) : Prop :=
  match l with
  | Mts _ _ :: ((Given _ :: _) as r) => False
  | _ :: r => apart r
  | [] => True
  end.
Definition arguments (l : list item) : list text :=
  flat_map (fun i => match i with Given t => [t] | _ => [] end) l.
(** What an option changes. *)
Definition change (a : args) (i : item) : args :=
  let '(mkArgs b s n mts mpi over plots write wait submit dist only) := a in
  match i with
  | Given _ => a
  | Mts _ l => mkArgs b s n l mpi over plots write wait submit dist only
  | Mpi _ z => mkArgs b s n mts z over plots write wait submit dist only
  | Over _ z => mkArgs b s n mts mpi z plots write wait submit dist only
  | Plots _ => mkArgs b s n mts mpi over true write wait submit dist only
  | WritePbs _ => mkArgs b s n mts mpi over plots true wait submit dist only
  | WaitFor _ t => mkArgs b s n mts mpi over plots write (Some t) submit dist only
  | Submit _ => mkArgs b s n mts mpi over plots write wait true dist only
  | Dist _ t => mkArgs b s n mts mpi over plots write wait submit t only
  | PlotOnly _ => mkArgs b s n mts mpi over plots write wait submit dist true
  end.
Definition defaults (b s : text) (n : Z) : args := mkArgs b s n [] 1 (-1) false false None false (str "normal") false.

(** A misspelt option: begins with a dash, is not a negative number, has no blank, and no
    option begins with what precedes [=]. *)
Definition misspelt (t : text) : Prop :=
  (exists r, t = "-"%char :: r /\ r <> []) /\ ~ below_zero t /\
  ~ In sp t /\ (forall r, t <> str "-h" ++ r) /\
  forall u q r n, t = u ++ q -> (q = [] \/ exists v, q = "="%char :: v) -> In n options -> n <> u ++ r.

(** Characters the shell does not treat specially. *)
Definition plain (c : ascii) : Prop :=
  is_digit c = true \/ (65 <= nat_of_ascii c <= 90) \/ (97 <= nat_of_ascii c <= 122) \/
  In c (str "_./-+,:@%=").
Definition name (t : text) : Prop := t <> [] /\ forall c, In c t -> plain c.
(** A shell: the words of a line without special characters are those between blanks. *)
Definition shell (sh : text -> list text) : Prop :=
  forall t, (forall c, In c t -> plain c \/ c = sp) -> sh t = words t.
(** What starts the script. *)
Definition launcher (mpi : Z) : list text :=
  if Z.ltb 1 mpi then [str "mpiexec"; str "-n"; decZ mpi; str "python"] else [str "python"].
