(** What a user of the ACE editor relies on, stated on the calls of the editor
    (open_editor, get_energy, get_sigma, set_sigma, apply_sum_rules) only. *)
From Verif Require Import Num Chi_Model AceEdit_Model.
Local Open Scope Z_scope.

(** The constituents of a redundant reaction that the editor keeps in step, by
    MT ranges (comments of AceIO.py:335-357; ENDF-6 summation table). *)
Definition part_of (sm m : Z) : Prop :=
  (sm = 103 /\ 600 <= m <= 649) \/
  (sm = 104 /\ 650 <= m <= 699) \/
  (sm = 105 /\ 700 <= m <= 749) \/
  (sm = 106 /\ 750 <= m <= 799) \/
  (sm = 107 /\ 800 <= m <= 849) \/
  ((sm = 101 \/ sm = 27) /\
     (m = 102 \/ 600 <= m <= 849 \/ m = 108 \/ m = 109 \/ 111 <= m <= 117 \/
      m = 155 \/ m = 182 \/ 191 <= m <= 193 \/ m = 197)) \/
  ((sm = 18 \/ sm = 27) /\ (19 <= m <= 21 \/ m = 38)) \/
  (sm = 16 /\ 875 <= m <= 891) \/
  (sm = 4 /\ 50 <= m <= 91) \/
  ((sm = 3 \/ sm = 1) /\
     (m = 4 \/ m = 5 \/ m = 11 \/ 16 <= m <= 18 \/ 22 <= m <= 26 \/ 28 <= m <= 37 \/
      m = 41 \/ m = 42 \/ m = 44 \/ m = 45 \/ 102 <= m <= 117)) \/
  (sm = 1 /\ m = 2).

(** Boolean version of [part_of], used only to write finite sums. *)
Definition part_ofb (sm m : Z) : bool :=
  let r a b := (a <=? m) && (m <=? b) in
  let e a := m =? a in
  ((sm =? 103) && r 600 649) || ((sm =? 104) && r 650 699) || ((sm =? 105) && r 700 749) ||
  ((sm =? 106) && r 750 799) || ((sm =? 107) && r 800 849) ||
  (((sm =? 101) || (sm =? 27)) &&
     (e 102 || r 600 849 || e 108 || e 109 || r 111 117 || e 155 || e 182 || r 191 193 || e 197)) ||
  (((sm =? 18) || (sm =? 27)) && (r 19 21 || e 38)) ||
  ((sm =? 16) && r 875 891) || ((sm =? 4) && r 50 91) ||
  (((sm =? 3) || (sm =? 1)) &&
     (e 4 || e 5 || e 11 || r 16 18 || r 22 26 || r 28 37 || e 41 || e 42 || e 44 || e 45 || r 102 117)) ||
  ((sm =? 1) && e 2).

(** A table as read from an ACE file: distinct reaction numbers (dictionary
    keys), none of them the pseudo numbers 452/1018, every cross section has at
    least one energy and as many values as energies. *)
Definition wf_table (t : table) : Prop :=
  NoDup (map fst (reactions t)) /\
  (forall m rx, In (m, rx) (reactions t) ->
     m <> 452 /\ m <> 1018 /\ tx rx <> [] /\ length (ty rx) = length (tx rx)).

(** The value the editor reports for reaction [m] at energy [e]
    (get_sigma(m, at_energies=[e], unadjusted=u)). *)
Definition reading (s : editor) (u : bool) (m : Z) (e : Qc) : Qc :=
  match get_sigma s m (Some [e]) u with Some [v] => v | _ => 0%Qc end.

(** Change of reaction [m] at energy [e] with respect to the evaluated file. *)
Definition change (s : editor) (e : Qc) (m : Z) : Qc :=
  (reading s false m e - reading s true m e)%Qc.

(** The reactions of the file that are constituents of [sm]. *)
Definition constituents (t : table) (sm : Z) : list Z :=
  filter (part_ofb sm) (map fst (reactions t)).

(** Reaction numbers a history touches: those set, and the redundant reactions
    of the file that have a touched constituent in the file. *)
Inductive touched (t : table) (h : list call) : Z -> Prop :=
| touched_set m v : In (SetSigma m v) h -> touched t h m
| touched_sum sm m : part_of sm m -> In m (map fst (reactions t)) ->
    touched t h m -> touched t h sm.

(** The set_sigma calls of a history, in order. *)
Fixpoint edits (h : list call) : list (Z * value) :=
  match h with
  | [] => []
  | SetSigma m v :: r => (m, v) :: edits r
  | SumRules :: r => edits r
  end.

Definition after_pass (t : table) (h : list call) : editor :=
  fst (apply_sum_rules (run (open_editor t) h)).

(** Strictly increasing grid. *)
Definition increasing (xs : list Qc) : Prop :=
  forall i j, (i < j < length xs)%nat -> (nth i xs 0 < nth j xs 0)%Qc.

(** Two energies further apart than the reader's closeness tolerance
    (1e-14 absolute plus 1e-5 of [b]). *)
Definition far (a b : Qc) : Prop :=
  ((a + qc 1 100000000000000 + qc 1 100000 * b < b)%Qc \/
   (b + qc 1 100000000000000 + qc 1 100000 * b < a)%Qc) /\ (0 <= b)%Qc.

(** No grid point other than the end points lies within that tolerance of an
    end point. *)
Definition ends_separated (xs : list Qc) : Prop :=
  forall i, (i < length xs)%nat ->
    (nth i xs 0%Qc <> last xs 0%Qc -> far (nth i xs 0%Qc) (last xs 0%Qc)) /\
    (nth i xs 0%Qc <> hd 0%Qc xs -> far (nth i xs 0%Qc) (hd 0%Qc xs)).
