(** What a reader sees in the plots. *)
From Verif Require Import Num AceEdit_Model MapGroups_Spec Samp_Spec Plot_Model.
From Coq Require Import ZArith.
Local Open Scope nat_scope.

(** [x] strictly between [a] and [b], in either order. *)
Definition amid (a b x : Qc) : Prop := (a < x /\ x < b)%Qc \/ (b < x /\ x < a)%Qc.
(** Drawn in steps ('steps-post'): from one point to the next the value of the first. *)
Definition step_shown {A} (c : curve A) (x : Qc) (y : A) : Prop :=
  exists i a b z, nth_error c i = Some (a, y) /\ nth_error c (S i) = Some (b, z) /\ amid a b x.
(** The cell of [x] (across) and [y] (up) between edges [es] shows [v]: rows of the matrix go
    up. *)
Definition cell_shown (es : list Qc) (m : matrix) (x y : Qc) (v : option Qc) : Prop :=
  exists i j a b c d, nth_error es i = Some a /\ nth_error es (S i) = Some b /\ (a < x /\ x < b)%Qc /\
    nth_error es j = Some c /\ nth_error es (S j) = Some d /\ (c < y /\ y < d)%Qc /\ m j i = v.

(** Groups from high to low energies without gaps. *)
Definition chained (rs : list row) : Prop :=
  rs <> [] /\ (forall i r, nth_error rs i = Some r -> (0 <= low r /\ low r < high r)%Qc) /\
  forall i r s, nth_error rs i = Some r -> nth_error rs (S i) = Some s -> low r = high s.
(** [x] is inside group [i]. *)
Definition inside (rs : list row) (i : nat) (x : Qc) : Prop := exists r, nth_error rs i = Some r /\ (low r < x /\ x < high r)%Qc.
(** Average and sum of squared deviations. *)
Definition mean (v : list Qc) : Qc := (qsum v / qz (Z.of_nat (length v)))%Qc.
Definition scatter (v : list Qc) : Qc := qsum (map (fun x => (x - mean v) * (x - mean v))%Qc v).
(** The range of colours holds a value. *)
Definition in_range (c : option Qc * option Qc) (v : Qc) : Prop := exists a b, c = (Some a, Some b) /\ (a <= v /\ v <= b)%Qc.
