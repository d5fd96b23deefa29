(** Redundant reactions: finding their components, leaving them out of a library file
    and summing them up again on reading.
    Source: /repo/ASAPy/data/neutron.py:377-399, 447-465, 529-556;
            /repo/ASAPy/data/endf.py:51-69.
    Simplifications: a cross section is its value at one energy and one temperature
    ([Sum] adds pointwise, function.py:519-521); of a reaction only its MT, that value,
    the [redundant] flag and whether a photon is among its products are kept. *)
From Coq Require Import ZArith QArith Qcanon List Bool Arith.
From Verif Require Import Num.
Import ListNotations.
Local Open Scope nat_scope.

(** [list(range(a, a+n))]. *)
Definition zrange (a : Z) (n : nat) : list Z := map (fun i => (a + Z.of_nat i)%Z) (seq 0 n).
(** endf.py:51-69: SUM_RULES. *)
Definition sum_rules : list (Z * list Z) :=
  [(1, [2; 3]);
   (3, [4; 5; 11; 16; 17; 22; 23; 24; 25; 27; 28; 29; 30; 32; 33; 34; 35;
        36; 37; 41; 42; 44; 45; 152; 153; 154; 156; 157; 158; 159; 160;
        161; 162; 163; 164; 165; 166; 167; 168; 169; 170; 171; 172;
        173; 174; 175; 176; 177; 178; 179; 180; 181; 183; 184; 185;
        186; 187; 188; 189; 190; 194; 195; 196; 198; 199; 200]);
   (4, zrange 50 42);
   (16, zrange 875 17);
   (18, [19; 20; 21; 38]);
   (27, [18; 101]);
   (101, [102; 103; 104; 105; 106; 107; 108; 109; 111; 112; 113; 114;
          115; 116; 117; 155; 182; 191; 192; 193; 197]);
   (103, zrange 600 50);
   (104, zrange 650 50);
   (105, zrange 700 50);
   (106, zrange 750 50);
   (107, zrange 800 50)]%Z.
(** [SUM_RULES[mt]], empty when not a key (no rule is empty). *)
Definition rule (mt : Z) : list Z :=
  match find (fun e => (fst e =? mt)%Z) sum_rules with Some (_, l) => l | None => [] end.

(** neutron.py:393-395: the loop adding up the components of the parts. *)
Fixpoint gather (g : Z -> option (list Z)) (l : list Z) : option (list Z) :=
  match l with
  | [] => Some []
  | m :: r => match g m, gather g r with Some a, Some b => Some (a ++ b) | _, _ => None end
  end.
(** neutron.py:377-399; [present mt] is [mt in self].  Depth of recursion is limited by
    [fuel] ([None]: RecursionError). *)
Fixpoint comp (fuel : nat) (present : Z -> bool) (mt : Z) : option (list Z) :=
  match fuel with
  | O => None
  | S k => match gather (comp k present) (rule mt) with
           | Some [] => Some (if present mt then [mt] else [])
           | o => o
           end
  end.
(** Python's recursion limit is far above this. *)
Definition get_reaction_components (present : Z -> bool) (mt : Z) : option (list Z) := comp 100 present mt.

(** The reactions held: MT and cross section, in order. *)
Definition held := list (Z * Qc).
(** neutron.py:117-121 with 114-115. *)
Definition look (d : held) (mt : Z) : option Qc :=
  match find (fun e => (fst e =? mt)%Z) d with Some (_, v) => Some v | None => None end.
(** neutron.py:114-115. *)
Definition has (d : held) (mt : Z) : bool := match look d mt with Some _ => true | None => false end.
(** neutron.py:547: the cross sections of those parts that are there. *)
Fixpoint parts_of (d : held) (l : list Z) : list Qc :=
  match l with [] => [] | m :: r => match look d m with Some v => v :: parts_of d r | None => parts_of d r end end.
(** neutron.py:546-556: one turn of the loop. *)
Definition add_sum (d : held) (mt : Z) : held :=
  if has d mt then d else match parts_of d (rule mt) with [] => d | vs => d ++ [(mt, qsum vs)] end.
(** neutron.py:545: [sorted(SUM_RULES, reverse=True)]. *)
Definition order : list Z := [107; 106; 105; 104; 103; 101; 27; 18; 16; 4; 3; 1]%Z.
(** neutron.py:543-556. *)
Definition rebuild (d : held) : held := fold_left add_sum order d.

(** A reaction as held before writing. *)
Record reaction := mkRx { rmt : Z; rxs : Qc; redundant : bool; photon : bool }.
(** neutron.py:453-457: is it written? *)
Definition written (r : reaction) : bool :=
  if redundant r then photon r || existsb (fun m => (m =? rmt r)%Z) [16; 103; 104; 105; 106; 107]%Z || (rmt r =? 4)%Z else true.
(** neutron.py:447-461 and 529-536: what the file gives back. *)
Definition write_read (rs : list reaction) : held := map (fun r => (rmt r, rxs r)) (filter written rs).
(** The whole way: export_to_hdf5 then from_hdf5. *)
Definition through_file (rs : list reaction) : held := rebuild (write_read rs).
