(** Vocabulary for written files: lists of words. *)
From Verif Require Import Num Text AceText_Spec.
Local Open Scope list_scope.
Local Open Scope nat_scope.

(** The words [b] stand at position [i] of [ws]. *)
Definition held (ws : list text) (i : nat) (b : list text) : Prop := exists l r, ws = l ++ b ++ r /\ length l = i.
(** No other word of the file ends with the first word of the block, begins with its last
    one, or contains the only one. *)
Definition fenced (old ws : list text) : Prop := forall x, In x ws ->
  (forall a, x = a ++ hd [] old -> a = []) /\
  (forall c, x = last old [] ++ c -> c = []) /\
  (forall o a c, old = [o] -> x = a ++ o ++ c -> a = [] /\ c = []).
(** A block of the file: where it stands ([None]: nowhere), its words before and after,
    whether all its occurrences are to go. *)
Record block := mkBlock { b_at : option nat; b_old : list text; b_new : list text; b_all : bool }.
(** The words after a block was rewritten. *)
Definition put (ws : list text) (b : block) : list text :=
  match b_at b with
  | Some i => firstn i ws ++ b_new b ++ skipn (i + length (b_new b)) ws
  | None => ws
  end.
Definition rewritten (ws : list text) (bs : list block) : list text := fold_left put bs ws.
(** The words of the block are met first (or only) at its own place. *)
Definition at_home (ws : list text) (b : block) : Prop :=
  b_old b <> [] /\ length (b_new b) = length (b_old b) /\ fenced (b_old b) ws /\
  match b_at b with
  | Some i => held ws i (b_old b) /\ forall j, held ws j (b_old b) -> if b_all b then j = i else i <= j
  | None => forall j, ~ held ws j (b_old b)
  end.
(** ... when its turn comes. *)
Fixpoint in_turn (ws : list text) (bs : list block) : Prop :=
  match bs with
  | [] => True
  | b :: r => at_home ws b /\ in_turn (put ws b) r
  end.
(** Only blanks and line ends separate words. *)
Definition blanks_only (f : text) : Prop := forall c, In c f -> is_space c = true -> c = sp \/ c = nl.
(** [i] is a position of the block. *)
Definition inside (b : block) (i : nat) : Prop :=
  match b_at b with Some p => p <= i < p + length (b_old b) | None => False end.
Definition apart (b c : block) : Prop := forall i, ~ (inside b i /\ inside c i).

(** ** From an edited table to blocks *)
From Verif Require Import Chi_Model AceEdit_Model.
From Coq Require Import ZArith.
(** The arrays of a reaction before and after: one pair, or for the spectrum all pdfs per
    MeV, then all cdfs. *)
Definition arrays (t : table) (s : editor) (m : Z) (ps : list (list Qc * list Qc)) : Prop :=
  (m <> 1018%Z /\ exists b d, get_sigma (open_editor t) m None false = Some b /\ get_sigma s m None false = Some d /\ ps = [(b, d)]) \/
  (m = 1018%Z /\ In 18%Z (all_mts s) /\ exists b d, chi t = Some b /\ chi (cur s) = Some d /\ length b = length d /\
     exists qs cs, ps = qs ++ cs /\ length qs = length b /\ length cs = length b /\
     forall i x y, nth_error b i = Some x -> nth_error d i = Some y ->
       nth_error qs i = Some (map (fun p => p * qz 1000000)%Qc (dp x), map (fun p => p * qz 1000000)%Qc (dp y)) /\ nth_error cs i = Some (dc x, dc y)).
(** The blocks that hold these arrays as [fmt] prints them. *)
Definition blocks (fmt : Qc -> text) (t : table) (s : editor) (m : Z) (bs : list block) : Prop :=
  exists ps, arrays t s m ps /\
    Forall2 (fun p b => b_old b = map fmt (fst p) /\ b_new b = map fmt (snd p) /\ (b_all b = true <-> m = 452%Z)) ps bs.
(** A block that is nowhere ends the reaction. *)
Fixpoint upto (bs : list block) : list block :=
  match bs with
  | [] => []
  | b :: r => b :: match b_at b with Some _ => upto r | None => [] end
  end.
(** Words after the header. *)
Definition data_words (n : nat) (f : text) : list text := words (concat (skipn n (lines f))).
