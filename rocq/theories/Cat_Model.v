(** Catalogues of data files.
    Source: /repo/ASAPy/data/library.py:23-149.
    Paths are those of posixpath (CPython), as in Path_Model.v.
    Simplifications: no links in the file system ([realpath] is [abspath]); XML is its tree
    (writing and parsing it keeps texts and attributes, clean_indentation changes white
    space between elements only); code points below 256; the working directory is an
    argument; [None] is an exception. *)
From Verif Require Import Text Path_Model.
Local Open Scope list_scope.
Local Notation "'do' x <- e ; f" := (match e with Some x => f | None => None end) (at level 200, x pattern, e at level 100, f at level 200).

(** *** posixpath *)
(** What follows the last slash removed; reversed. *)
Fixpoint from_slash (r : text) : text := match r with [] => [] | c :: r' => if eqc c slash then r else from_slash r' end.
(** [rstrip('/')]; reversed. *)
Fixpoint no_slash (r : text) : text := match r with c :: r' => if eqc c slash then no_slash r' else r | [] => [] end.
(** posixpath.dirname. *)
Definition dirname (p : text) : text :=
  let head := from_slash (rev p) in
  if forallb (fun c => eqc c slash) head then rev head else rev (no_slash head).
(** Two beginnings; of strings and of lists. *)
Fixpoint common {A} (same : A -> A -> bool) (a b : list A) : list A :=
  match a, b with x :: a', y :: b' => if same x y then x :: common same a' b' else [] | _, _ => [] end.
(** genericpath.commonprefix (there, of the smallest and largest: the same). *)
Definition commonprefix (l : list text) : text := match l with [] => [] | a :: r => fold_left (common eqc) r a end.
(** The parts of posixpath.relpath. *)
Definition steps (cwd p : text) : list text := filter (fun c => negb (eqt c [])) (split (abspath cwd p)).
(** posixpath.relpath. *)
Definition relpath (cwd p start : text) : option text :=
  match p with
  | [] => None
  | _ =>
      let s := steps cwd start in
      let l := steps cwd p in
      let i := length (common eqt s l) in
      match repeat dotdot (length s - i) ++ skipn i l with
      | [] => Some dot
      | a :: r => Some (fold_left join_path r a)
      end
  end.

(** *** The catalogue *)
(** library.py:57. *)
Record entry := mkEntry { e_path : text; e_type : text; e_mats : list text }.
(** library.py:26-43. *)
Definition get_by_material (name : text) (l : list entry) : option entry := find (fun e => existsb (eqt name) (e_mats e)) l.
(** library.py:45-58; [file] is the attribute and the groups of the file, if there is one. *)
Definition register_file (filename : text) (file : option (option text * list text)) (l : list entry) : option (list entry) :=
  do (attr, groups) <- file;
  do t <- attr;
  Some (l ++ [mkEntry filename (skipn 5 t) groups]).
(** The tree: the text of [directory], and materials, path and type of each [library]. *)
Record xml := mkXml { x_dir : option text; x_libs : list (text * text * text) }.
(** library.py:70-73. *)
Definition common_dir (l : list entry) : text := match dirname (commonprefix (map e_path l)) with [] => dot | d => d end.
(** library.py:79-83. *)
Fixpoint elements (cwd dir : text) (l : list entry) : option (list (text * text * text)) :=
  match l with
  | [] => Some []
  | e :: l' =>
      do p <- relpath cwd (e_path e) dir;
      do r <- elements cwd dir l';
      Some ((join (e_mats e), p, e_type e) :: r)
  end.
(** library.py:60-91. *)
Definition export_to_xml (cwd path : text) (l : list entry) : option xml :=
  let dir := common_dir l in
  do p <- relpath cwd dir (dirname path);
  do es <- elements cwd dir l;
  Some (mkXml (if eqt p dot then None else Some (abspath cwd dir)) es).
(** library.py:128-149, [path] given. *)
Definition from_xml (path : text) (x : xml) : list entry :=
  let dir := match x_dir x with Some d => d | None => dirname path end in
  map (fun e => let '(m, p, t) := e in mkEntry (join_path dir p) t (words m)) (x_libs x).
