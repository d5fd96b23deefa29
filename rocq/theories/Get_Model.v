(** Opening an ACE library and picking a table: data/ace.py.
    Source: /repo/ASAPy/data/ace.py:170-197 (get_table), 222-248 (Library.__init__).
    Simplifications: those of Lib_Model; a file is its bytes; text has no carriage returns
    and no bytes above 127 after its first ten lines (what they mean depends on the locale);
    [None] is an exception. *)
From Coq Require Import ZArith NArith List Bool Arith Ascii.
From Verif Require Import Text Dec PyNum Lib_Model.
Import ListNotations.
Local Open Scope nat_scope.

(** bytes.decode('ascii') succeeds, ace.py:235-238. *)
Definition decodes (b : bytes) : bool := forallb (fun c => nat_of_ascii c <? 128) b.
Section Float.
Context {D : Type} (F : floats D).
(** ace.py:222-248: text if the first ten lines are ASCII, else binary. *)
Definition library (repair : list text -> list text) (wanted : option (list text)) (f : bytes) : option (list (table D)) :=
  if decodes (concat (firstn 10 (lines f))) then read_ascii F repair wanted (lines f) else read_bin F wanted f.
(** ace.py:170-197; IndexError without tables, ValueError without the name. *)
Definition get_table (repair : list text -> list text) (f : bytes) (name : option text) : option (table D) :=
  match library repair None f with
  | None => None
  | Some ts => match name with None => nth_error ts 0 | Some n => find (fun t => eqt (t_name t) n) ts end
  end.
End Float.
