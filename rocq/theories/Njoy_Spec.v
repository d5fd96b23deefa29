(** What a sound deck is (independent of how it is built). *)
From Coq Require Import List Bool Arith.
From Verif Require Import Njoy_Model.
Import ListNotations.

(** All that the modules of a deck write. *)
Definition written (d : list module) : list (kind * nat) := flat_map writes d.
(** Unit 20 is the ENDF input; any other unit read was written earlier. *)
Definition ordered (d : list module) : Prop :=
  forall pre m post k u, d = pre ++ m :: post -> In (k, u) (reads m) -> u = 20 \/ In u (map snd (written pre)).
(** The same, and the unit holds the kind of data the module needs. *)
Definition typed (d : list module) : Prop :=
  forall pre m post k u, d = pre ++ m :: post -> In (k, u) (reads m) -> (k = Endf /\ u = 20) \/ In (k, u) (written pre).
(** Every unit is written once, and the input never. *)
Definition written_once (d : list module) : Prop := NoDup (map snd (written d)) /\ ~ In 20 (map snd (written d)).
(** The kinds that are results rather than intermediate data. *)
Definition final (k : kind) : bool := match k with Boxer | Eps | Ace | Xsdir => true | _ => false end.
(** Module [m] is asked to use a weight table and gets one, or neither. *)
Definition table_consistent (m : module) : Prop := wants_table m = has_table m.
