(** The text of an ACE library. *)
From Coq Require Import ZArith List Arith Ascii.
From Verif Require Import Text PyNum Lib_Model.
Import ListNotations.
Local Open Scope nat_scope.

Section Float.
Context {D : Type} (F : floats D).
(** What is assumed of floats. *)
Record proper : Prop := {
  p_bytes : forall d, dec F (enc F d) = d;
  p_eight : forall d, length (enc F d) = 8;
  p_prefix : forall w d, word w -> flt F w = Some d -> prefix F w = Some (d, true) }.
Definition fits (z : Z) : Prop := (- 2 ^ 31 <= z < 2 ^ 31)%Z.
(** Words of several lines. *)
Definition all_words (ls : list text) : list text := flat_map words ls.
(** The lines of a table with a classic header: two title lines, 4 lines of 16 pairs, 2
    lines of 16 and 4 lines of 32 integers, and the data, 4 to a line.  The columns of
    the first line hold its first three words. *)
Record table_text (ls : list text) (t : table D) : Prop := mkTableText {
  tx_lines : exists h0 h1 ps ns js ds, ls = h0 :: h1 :: ps ++ ns ++ js ++ ds /\ length ps = 4 /\ length ns = 2 /\ length js = 4 /\
     10 <= length h0 /\ trim (firstn 10 h0) = t_name t /\ flt F (firstn 12 (skipn 10 h0)) = Some (t_awr t) /\ flt F (firstn 12 (skipn 22 h0)) = Some (t_temp t) /\
     (exists c d r wa wt more, t_name t = c :: d :: r /\ d <> "."%char /\ words h0 = t_name t :: wa :: wt :: more /\ flt F wa = Some (t_awr t) /\ flt F wt = Some (t_temp t)) /\
     (exists pw, all_words ps = flat_map (fun p => [fst p; snd p]) pw /\ length pw = 16 /\
        Forall2 (fun p q => py_int (fst p) = Some (fst q) /\ flt F (snd p) = Some (snd q) /\ fits (fst q)) pw (t_pairs t)) /\
     (exists nxs, t_nxs t = 0%Z :: nxs /\ length nxs = 16 /\ Forall2 (fun w z => py_int w = Some z /\ fits z) (all_words ns) nxs /\
        exists xss, t_xss t = zero F :: xss /\ nth 0 nxs 0%Z = Z.of_nat (length xss) /\ Forall2 (fun w d => flt F w = Some d) (all_words ds) xss /\
          length ds = (length xss + 3) / 4) /\
     (exists jxs, t_jxs t = 0%Z :: jxs /\ length jxs = 32 /\ Forall2 (fun w z => py_int w = Some z /\ fits z) (all_words js) jxs) }.
(** What the text reader relies on besides: lines end; there are at least two lines of
    data; all but the last are as long as the first. *)
Definition even_lines (ls : list text) : Prop :=
  Forall ended ls /\ exists d ds e, skipn 12 ls = d :: ds ++ [e] /\ Forall (fun l => length l = length d) ds.
(** A new-style header in front, announcing three lines. *)
Definition new_header (pre : list text) : Prop :=
  exists l0 l1 l2 w c r more a b d rest, pre = [l0; l1; l2] /\ words l0 = w :: more /\ w = c :: "."%char :: r /\ words l1 = a :: b :: d :: str "3" :: rest.
(** A file of tables, old or new style. *)
Inductive library_text : list text -> list (table D) -> Prop :=
| lt_nil : library_text [] []
| lt_old ls t r ts : table_text ls t -> library_text r ts -> library_text (ls ++ r) (t :: ts)
| lt_new pre ls t r ts : new_header pre -> table_text ls t -> library_text r ts -> library_text (pre ++ ls ++ r) (t :: ts).
(** The same naming the table behind it. *)
Definition header_for (pre : list text) (t : table D) : Prop :=
  exists l0 l1 l2 c r more a b d rest, pre = [l0; l1; l2] /\ words l0 = (c :: "."%char :: r) :: t_name t :: more /\ words l1 = a :: b :: d :: str "3" :: rest /\
    flt F a = Some (t_awr t) /\ flt F b = Some (t_temp t).
(** A file of tables, evenly written. *)
Inductive even_text : list text -> list (table D) -> Prop :=
| et_nil : even_text [] []
| et_old ls t r ts : table_text ls t -> even_lines ls -> even_text r ts -> even_text (ls ++ r) (t :: ts)
| et_new pre ls t r ts : header_for pre t -> table_text ls t -> even_lines ls -> even_text r ts -> even_text (pre ++ ls ++ r) (t :: ts).
(** A new-style header announcing any number of lines; there are that many. *)
Definition long_header (pre : list text) (n : text) (t : table D) : Prop :=
  exists l0 l1 cs c r more a b d rest, pre = l0 :: l1 :: cs /\ words l0 = (c :: "."%char :: r) :: t_name t :: more /\ words l1 = a :: b :: d :: n :: rest /\
    flt F a = Some (t_awr t) /\ flt F b = Some (t_temp t) /\ py_int n = Some (Z.of_nat (length pre)).
End Float.
