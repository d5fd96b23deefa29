(** Group structure, stated without the mapping code. *)
From Verif Require Import Num.
Local Open Scope Qc_scope.

(** Strictly decreasing upper bounds. *)
Fixpoint decreasing (l : list Qc) : Prop :=
  match l with
  | x :: (y :: _) as r => y < x /\ decreasing r
  | _ => True
  end.

(** Group [g] (counted from 1, group 1 has the highest energies) has upper bound
    [hs_g] (group 1 reaches up to [max_e]) and lower bound [hs_(g+1)] (the last
    group reaches down to [min_e]). *)
Definition upper (hs : list Qc) (max_e : Qc) (g : nat) : Qc :=
  if (g =? 1)%nat then max_e else nth (g - 1) hs 0.
Definition lower (hs : list Qc) (min_e : Qc) (g : nat) : Qc :=
  if (g =? length hs)%nat then min_e else nth g hs 0.

Definition in_group (hs : list Qc) (min_e max_e : Qc) (g : nat) (e : Qc) : Prop :=
  (1 <= g <= length hs)%nat /\ lower hs min_e g < e /\ e <= upper hs max_e g.

(** The value an energy should get. *)
Definition right_value (hs : list Qc) (v : nat -> Qc) (min_e max_e out e r : Qc) : Prop :=
  (e < min_e \/ max_e < e -> r = out) /\
  (forall g, in_group hs min_e max_e g e -> r = v g).

(** The range limits used: those given, else the highest bound and a tenth of the
    lowest bound. *)
Definition eff_max hs (a : option Qc) : Qc := match a with Some m => m | None => hd 0 hs end.
Definition eff_min hs (a : option Qc) : Qc := match a with Some m => m | None => last hs 0 / qz 10 end.
