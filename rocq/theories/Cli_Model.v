(** Command lines of the sampling program, and the job it writes.
    Source: /repo/ASAPy/XsecSampler.py:806-828 (create_argparser), 830-866 (the job).
    The parser is Python's argparse (CPython 3.6 to 3.11), as far as these programs use it:
    positional arguments with one value, options without a value, with one value, with one
    or more values ([nargs='+']), -h and --help; abbreviations; [name=value].
    Simplifications: an argument [--] is treated as any other text; characters have codes below 256; [int] has no underscores; help,
    errors (which end the program) have one outcome, [None]; what qsub_helper writes around
    the command is not part of the repository: one line with the command and its arguments
    joined by a blank. *)
From Verif Require Import Text Dec PyNum.
From Coq Require Import ZArith NArith.
Local Open Scope list_scope.

(** *** argparse *)
Inductive kind := Flag | One | Many.
Inductive value := Str (t : text) | Int (z : Z).
(** Name, number of values, [type=int], [choices] (empty: any). *)
Record arg := mkArg { g_name : text; g_kind : kind; g_int : bool; g_choices : list value }.
(** Positional arguments in order; options besides -h, --help. *)
Record parser := mkParser { p_pos : list arg; p_opt : list arg }.

Definition value_eqb (a b : value) : bool :=
  match a, b with Str x, Str y => eqt x y | Int x, Int y => Z.eqb x y | _, _ => false end.
(** argparse.ArgumentParser._get_value and _check_value. *)
Definition allowed (g : arg) (v : value) : bool :=
  match g_choices g with [] => true | l => existsb (value_eqb v) l end.
Definition convert (g : arg) (t : text) : option value :=
  match (if g_int g then option_map Int (py_int t) else Some (Str t)) with
  | Some v => if allowed g v then Some v else None
  | None => None
  end.
Fixpoint convert_all (g : arg) (l : list text) : option (list value) :=
  match l with
  | [] => Some []
  | t :: r => match convert g t, convert_all g r with Some v, Some vs => Some (v :: vs) | _, _ => None end
  end.

Definition helps : list text := [str "-h"; str "--help"].
Definition names (p : parser) : list text := helps ++ map g_name (p_opt p).
Definition find_arg (n : text) (l : list arg) : option arg := find (fun g => eqt n (g_name g)) l.
Definition starts (p t : text) : bool := match strip p t with Some _ => true | None => false end.
Definition mem (t : text) (l : list text) : bool := existsb (eqt t) l.
(** The regular expression [^-\d+$|^-\d*\.\d+$]. *)
Definition negative (t : text) : bool :=
  match t with
  | c :: r =>
      eqc c "-" &&
      (let (ds, r') := digits r in
       match r' with
       | [] => negb (eqt ds [])
       | d :: f => eqc d "." && negb (eqt f []) && forallb is_digit f
       end)
  | [] => false
  end.
(** The text before the first [=] and the one after it. *)
Fixpoint split_eq (t : text) : option (text * text) :=
  match t with
  | [] => None
  | c :: r => if eqc c "=" then Some ([], r)
              else match split_eq r with Some (a, b) => Some (c :: a, b) | None => None end
  end.
(** _get_option_tuples: names with the value given by [=] or attached. *)
Definition completions (p : parser) (t : text) : list (text * option text) :=
  match t with
  | c1 :: c2 :: r =>
      if eqc c2 "-" then
        let (pre, ex) := match split_eq t with Some (a, b) => (a, Some b) | None => (t, None) end in
        map (fun n => (n, ex)) (filter (starts pre) (names p))
      else
        flat_map (fun n => if eqt n [c1; c2] then [(n, Some r)]
                           else if starts t n then [(n, None)] else []) (names p)
  | _ => []
  end.
(** What an argument is: a value, an option (with an attached value), or the end of the
    program (help, unknown or ambiguous option). *)
Inductive class := Arg | Opt (g : arg) (ex : option text) | Stop.
Definition option_class (p : parser) (n : text) (ex : option text) : class :=
  match find_arg n (p_opt p) with Some g => Opt g ex | None => Stop end.
(** _parse_optional. *)
Definition classify (p : parser) (t : text) : class :=
  match t with
  | [] => Arg
  | c :: r =>
      if negb (eqc c "-") then Arg
      else if mem t (names p) then option_class p t None
      else match r with
      | [] => Arg
      | _ =>
        let abbreviated :=
          match completions p t with
          | [(n, ex)] => option_class p n ex
          | _ :: _ :: _ => Stop
          | [] => if negative t then Arg else if existsb (eqc sp) t then Arg else Stop
          end in
        match split_eq t with
        | Some (n, v) => if mem n (names p) then option_class p n (Some v) else abbreviated
        | None => abbreviated
        end
      end
  end.

(** Values by name, the latest first. *)
Definition namespace := list (text * list value).
Fixpoint get (n : text) (s : namespace) : option (list value) :=
  match s with [] => None | (m, v) :: r => if eqt n m then Some v else get n r end.
Definition put (g : arg) (l : list text) (s : namespace) : option namespace :=
  option_map (fun vs => (g_name g, vs) :: s) (convert_all g l).

(** Where the parser is: at no option, at an option that waits for its value, at an option
    that takes every value that follows. *)
Inductive state := Idle | Wait (g : arg) | Collect (g : arg) (l : list text).
(** _parse_known_args: the arguments that are left, positionals not yet seen. *)
Definition idle (c : class) (t : text) (pos : list arg) (s : namespace) : option (list arg * state * namespace) :=
  match c with
  | Stop => None
  | Arg => match pos with
           | [] => None
           | g :: pos' => option_map (fun s' => (pos', Idle, s')) (put g [t] s)
           end
  | Opt g ex =>
      match g_kind g, ex with
      | Flag, None => Some (pos, Idle, (g_name g, []) :: s)
      | Flag, Some _ => None
      | _, Some v => option_map (fun s' => (pos, Idle, s')) (put g [v] s)
      | One, None => Some (pos, Wait g, s)
      | Many, None => Some (pos, Collect g [], s)
      end
  end.
Definition close (st : state) (s : namespace) : option namespace :=
  match st with
  | Idle => Some s
  | Wait _ => None
  | Collect _ [] => None
  | Collect g l => put g l s
  end.
Definition step (p : parser) (t : text) (pos : list arg) (st : state) (s : namespace) : option (list arg * state * namespace) :=
  let c := classify p t in
  match st, c with
  | Wait g, Arg => option_map (fun s' => (pos, Idle, s')) (put g [t] s)
  | Collect g l, Arg => Some (pos, Collect g (l ++ [t]), s)
  | _, _ => match close st s with Some s' => idle c t pos s' | None => None end
  end.
Fixpoint run (p : parser) (ts : list text) (pos : list arg) (st : state) (s : namespace) : option namespace :=
  match ts with
  | [] => match pos with [] => close st s | _ => None end
  | t :: r => match step p t pos st s with Some (pos', st', s') => run p r pos' st' s' | None => None end
  end.
(** parse_args; [None]: the program ends. *)
Definition parse (p : parser) (ts : list text) : option namespace := run p ts (p_pos p) Idle [].

(** *** XsecSampler.py *)
Definition any (n : string) (k : kind) (i : bool) : arg := mkArg (str n) k i [].
(** Line 824. *)
Definition distributions : list text :=
  map str ["normal"; "lognormal"; "uncorrelated"; "uniform"; "loguncorrelated"]%string.
(** XsecSampler.py:806-828. *)
Definition sampler : parser :=
  mkParser
    [any "base_ace" One false; any "cov_store" One false; any "num_samples" One true]
    [any "-mts" Many true; any "-mpiproc" One true; any "-num_oversamples" One true;
     any "--make_plots" Flag false; any "--writepbs" Flag false; any "--waitforjob" One false;
     any "--subpbs" Flag false; mkArg (str "-distribution") One false (map Str distributions);
     any "--plot-only" Flag false].
(** What the script takes from the result ([mts] empty: not given). *)
Record args := mkArgs {
  a_base : text; a_store : text; a_num : Z; a_mts : list Z; a_mpi : Z; a_over : Z;
  a_plots : bool; a_write : bool; a_wait : option text; a_submit : bool; a_dist : text; a_only : bool }.
Definition texts (o : option (list value)) : list text :=
  match o with Some l => flat_map (fun v => match v with Str t => [t] | Int _ => [] end) l | None => [] end.
Definition ints (o : option (list value)) : list Z :=
  match o with Some l => flat_map (fun v => match v with Int z => [z] | Str _ => [] end) l | None => [] end.
Definition given (o : option (list value)) : bool := match o with Some _ => true | None => false end.
Definition read_args (s : namespace) : args :=
  let f (n : string) := get (str n) s in
  mkArgs (hd [] (texts (f "base_ace"%string))) (hd [] (texts (f "cov_store"%string))) (hd 0%Z (ints (f "num_samples"%string)))
         (ints (f "-mts"%string)) (hd 1%Z (ints (f "-mpiproc"%string))) (hd (-1)%Z (ints (f "-num_oversamples"%string)))
         (given (f "--make_plots"%string)) (given (f "--writepbs"%string)) (hd_error (texts (f "--waitforjob"%string)))
         (given (f "--subpbs"%string)) (hd (str "normal") (texts (f "-distribution"%string))) (given (f "--plot-only"%string)).
(** XsecSampler.py:834. *)
Definition sampler_args (ts : list text) : option args := option_map read_args (parse sampler ts).

(** XsecSampler.py:841-866: the command of the job; [file] is the path of the script. *)
Definition job (file : text) (a : args) : text :=
  (if Z.ltb 1 (a_mpi a) then str "mpiexec -n " ++ decZ (a_mpi a) ++ [sp] else []) ++
  str "python " ++ file ++ [sp] ++
  a_base a ++ [sp] ++ a_store a ++ [sp] ++ decZ (a_num a) ++ [sp] ++
  (match a_mts a with [] => [] | l => str "-mt " ++ join (map decZ l) end) ++
  str " -distribution " ++ a_dist a ++ str " -num_oversamples " ++ decZ (a_over a) ++ [sp] ++
  (if a_plots a then str "--make_plots" else []).
(** XsecSampler.py:836-869: what the script does: sample, write a job (with the job to wait
    for and the processes to ask for), write and submit it. *)
Inductive action := Sample (a : args) | Write (command : text) (after : option text) (procs : Z) (submit : bool).
Definition main (file : text) (a : args) : action :=
  if a_write a then Write (job file a) (a_wait a) (a_mpi a) (a_submit a) else Sample a.
