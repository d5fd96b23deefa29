(** Reactions as sums of reactions. *)
From Coq Require Import ZArith QArith Qcanon List Bool Arith.
From Verif Require Import Num Sums_Model.
Import ListNotations.
Local Open Scope nat_scope.

(** [b] is a part of [a] by the sum rules of ENDF. *)
Definition part (a b : Z) : Prop :=
  ((a = 1 /\ 2 <= b <= 3) \/
   (a = 3 /\ (4 <= b <= 5 \/ b = 11 \/ 16 <= b <= 17 \/ 22 <= b <= 25 \/ 27 <= b <= 30 \/ 32 <= b <= 37 \/ 41 <= b <= 42 \/ 44 <= b <= 45 \/
      152 <= b <= 154 \/ 156 <= b <= 181 \/ 183 <= b <= 190 \/ 194 <= b <= 196 \/ 198 <= b <= 200)) \/
   (a = 4 /\ 50 <= b <= 91) \/
   (a = 16 /\ 875 <= b <= 891) \/
   (a = 18 /\ (19 <= b <= 21 \/ b = 38)) \/
   (a = 27 /\ (b = 18 \/ b = 101)) \/
   (a = 101 /\ (102 <= b <= 109 \/ 111 <= b <= 117 \/ b = 155 \/ b = 182 \/ 191 <= b <= 193 \/ b = 197)) \/
   (103 <= a <= 107 /\ 600 + 50 * (a - 103) <= b < 650 + 50 * (a - 103)))%Z.
(** A part of a part ..., or the thing itself. *)
Inductive within (a : Z) : Z -> Prop :=
| w_refl : within a a
| w_step b c : within a b -> part b c -> within a c.
(** Among the reactions [P], [m] is not split any further. *)
Definition finest (P : Z -> Prop) (m : Z) : Prop := P m /\ forall c, within m c -> P c -> c = m.
(** The components of [a]. *)
Definition components (P : Z -> Prop) (a : Z) (l : list Z) : Prop := NoDup l /\ forall m, In m l <-> within a m /\ finest P m.

(** The value of a reaction, 0 if it is not there. *)
Definition value (d : held) (m : Z) : Qc := match look d m with Some v => v | None => 0%Qc end.
Definition there (d : held) (m : Z) : Prop := look d m <> None.
Fixpoint total (f : Z -> Qc) (l : list Z) : Qc := match l with [] => 0%Qc | m :: r => (f m + total f r)%Qc end.
(** [d'] is [d] closed under the sum rules: what was there is unchanged; a sum not there
    is there if a part is, and is the sum of the parts. *)
Record closed (d d' : held) : Prop := {
  c_kept : forall m, there d m -> look d' m = look d m;
  c_leaf : forall m, (forall b, ~ part m b) -> look d' m = look d m;
  c_there : forall m, ~ there d m -> (exists b, part m b) -> (there d' m <-> exists c, part m c /\ there d' c);
  c_sum : forall m l, ~ there d m -> there d' m -> NoDup l -> (forall b, In b l <-> part m b) -> value d' m = total (value d') l }.
(** No fission parts without fission. *)
Definition fission_told (d : held) : Prop := there d 18 \/ forall m, part 18 m -> ~ there d m.

Definition before (rs : list reaction) : held := map (fun r => (rmt r, rxs r)) rs.
(** Each reaction is the sum of its components; redundant ones are split. *)
Record sound_library (rs : list reaction) : Prop := {
  s_nodup : NoDup (map rmt rs);
  s_sums : forall r l, In r rs -> components (there (before rs)) (rmt r) l -> rxs r = total (value (before rs)) l;
  s_flag : forall r, In r rs -> redundant r = true -> ~ finest (there (before rs)) (rmt r) }.
(** Written although redundant: inelastic scattering, (n,2n) and the sums over levels of an
    emitted charged particle, and what has photons. *)
Definition kept_whole (r : reaction) : Prop := photon r = true \/ (rmt r = 4 \/ rmt r = 16 \/ 103 <= rmt r <= 107)%Z.
