(** Text-level ACE editing: reading a file into one line, find and replace,
    writing it back.  Source: /repo/ASAPy/AceIO.py:413-510 (class WriteAce).
    Characters are code points below 256; the file content is taken after
    Python's newline translation. *)
From Verif Require Import Text.
From Coq Require Import ZArith.

(** AceIO.py:418-420: the state of a WriteAce object. *)
Record ace := mkAce { single : text; header : list text }.

(** AceIO.py:438 [l.replace('\n', ' ')]. *)
Definition nl2sp (s : text) : text := map (fun c => if eqc c nl then sp else c) s.

(** AceIO.py:440 [re.sub(' +', ' ', s)]. *)
Fixpoint squeeze (s : text) : text :=
  match s with
  | [] => []
  | c :: r => if eqc c sp && match r with d :: _ => eqc d sp | [] => false end
              then squeeze r else c :: squeeze r
  end.

(** AceIO.py:429-430: 15 header lines if the second character of the first word
    of the first line is a dot, else 12.  [None] = IndexError (empty file, blank
    first line, one-character first word). *)
Definition header_count (ls : list text) : option nat :=
  match ls with
  | [] => None
  | l :: _ => match words l with
              | [] => None
              | w :: _ => match nth_error w 1 with
                          | None => None
                          | Some c => Some (if eqc c "."%char then 15 else 12)
                          end
              end
  end.

(** AceIO.py:422-442 _read_ace_to_a_line. *)
Definition read_ace (f : text) : option ace :=
  let ls := lines f in
  match header_count ls with
  | None => None
  | Some n => Some {| single := squeeze (concat (map nl2sp (skipn n ls)));
                      header := firstn n ls |}
  end.

(** AceIO.py:444-461 format_mcnp; [fmt v] stands for Python's
    [format(v, '.11E')], an external call. *)
Definition format_mcnp {A} (fmt : A -> text) (l : list A) : text := join (map fmt l).

(** AceIO.py:481 [single_line.index(s)]: position of the first occurrence. *)
Fixpoint index (p s : text) : option nat :=
  match strip p s with
  | Some _ => Some 0
  | None => match s with
            | [] => None
            | _ :: r => option_map S (index p r)
            end
  end.

(** AceIO.py:488 [s.replace(old, new, count)] for a non-empty [old]: leftmost,
    non-overlapping, at most [k] times; [skip] counts the characters of an
    occurrence still to be passed over. *)
Fixpoint py_replace (old new : text) (skip k : nat) (s : text) : text :=
  match s with
  | [] => []
  | c :: r =>
      match skip with
      | S m => py_replace old new m k r
      | O => match k with
             | O => s
             | S k' => match strip old s with
                       | Some _ => new ++ py_replace old new (length old - 1) k' r
                       | None => c :: py_replace old new 0 k r
                       end
             end
      end
  end.

Inductive outcome := LengthMismatch | NotFound | Done (a : ace).

(** AceIO.py:463-489 replace_array.  A negative count means "all". *)
Definition replace_array {A} (fmt : A -> text) (w : ace) (arr new : list A) (count : Z) : outcome :=
  if negb (length arr =? length new) then LengthMismatch
  else
    let old := format_mcnp fmt arr in
    match index old (single w) with
    | None => NotFound
    | Some i =>
        let found := firstn (length old) (skipn i (single w)) in
        match found with
        | [] => Done w
        | _ => let k := if Z.ltb count 0 then length (single w) else Z.to_nat count in
               Done {| single := py_replace found (format_mcnp fmt new) 0 k (single w);
                       header := header w |}
        end
    end.

(** AceIO.py:500-509: the data loop of write_ace; the last test
    [values_printed_coutner < 4] always holds. *)
Fixpoint body (cnt : nat) (ws : list text) : text :=
  match ws with
  | [] => [nl]
  | w :: r => pad 20 w ++ (if S cnt =? 4 then nl :: body 0 r else body (S cnt) r)
  end.

(** AceIO.py:491-510 write_ace: the content of the written file. *)
Definition write_ace (w : ace) : text := concat (header w) ++ body 0 (words (single w)).
