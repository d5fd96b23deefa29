(** Sampled files. *)
From Verif Require Import Num Chi_Model AceEdit_Model AceEdit_Spec MapGroups_Spec Samp_Model.
From Coq Require Import ZArith.
Local Open Scope Z_scope.

(** [m] or a redundant reaction of the file kept in step with it. *)
Inductive above (t : table) (m : Z) : Z -> Prop :=
| above_self : above t m m
| above_sum sm p : part_of sm p -> In p (map fst (reactions t)) -> above t m p -> above t m sm.
(** No other sampled reaction has [r]'s kept in step with it. *)
Definition alone (t : table) (rs : list request) (r : request) : Prop :=
  forall r', In r' rs -> rq_mt r' <> rq_mt r -> ~ above t (rq_mt r') (rq_mt r).
(** Group data as stored: bounds decreasing, the lowest bound below them, factors given
    for all groups by [v]. *)
Definition good_groups (r : request) (lo : Qc) (v : nat -> Qc) : Prop :=
  rq_high r <> [] /\ decreasing (rq_high r) /\ (lo < last (rq_high r) 0)%Qc /\
  (In lo (rq_low r) /\ forall x, In x (rq_low r) -> (lo <= x)%Qc) /\
  forall g, (1 <= g <= length (rq_high r))%nat -> rq_col r (Z.of_nat g) = Some (v g).
(** A value times the factor of the group of its energy, 1 outside the groups; a value
    of 0 counts as 1. *)
Definition scaled_value (r : request) (lo : Qc) (v : nat -> Qc) (e y y' : Qc) : Prop :=
  exists f, right_value (rq_high r) v lo (hd 0%Qc (rq_high r)) 1%Qc e f /\
    (y <> 0%Qc -> y' = (f * y)%Qc) /\ (y = 0%Qc -> y' = f).
(** What the file holds for a number. *)
Definition rdata (t : table) (m : Z) : option tab := if m =? 452 then nu t else lookup m (reactions t).
(** A pdf times the factors of the groups of its outgoing energies. *)
Definition scaled_pdf (r : request) (lo : Qc) (v : nat -> Qc) (d : dist) (pdf : list Qc) : Prop :=
  length pdf = length (dx d) /\
  forall i, (i < length (dx d))%nat -> exists f, right_value (rq_high r) v lo (hd 0%Qc (rq_high r)) 1%Qc (nth i (dx d) 0%Qc) f /\
    nth i pdf 0%Qc = (f * nth i (dp d) 0)%Qc.
