(** What a result of [get_metadata] is. *)
From Coq Require Import ZArith List String Ascii.
From Verif Require Import Text Name_Model.
Import ListNotations.

(** Name, element, Z, A and m belong together. *)
Definition metadata (r : option (text * text * Z * Z * Z)) (z a m : Z) : Prop :=
  exists n e, r = Some (n, e, z, a, m) /\ symbol z = Some e /\ gnd_name z a m = Some n.

(** The periodic table, row by row, and the groups of rare earths and actinides. *)
Definition rows : list (Z * string) :=
  [(1, "H He"); (3, "Li Be B C N O F Ne"); (11, "Na Mg Al Si P S Cl Ar"); (19, "K Ca Sc Ti V Cr Mn Fe Co Ni Cu Zn Ga Ge As Se Br Kr");
   (37, "Rb Sr Y Zr Nb Mo Tc Ru Rh Pd Ag Cd In Sn Sb Te I Xe"); (55, "Cs Ba"); (57, "La Ce Pr Nd Pm Sm Eu Gd Tb Dy Ho Er Tm Yb Lu");
   (72, "Hf Ta W Re Os Ir Pt Au Hg Tl Pb Bi Po At Rn"); (87, "Fr Ra"); (89, "Ac Th Pa U Np Pu Am Cm Bk Cf Es Fm Md No Lr");
   (104, "Rf Db Sg Bh Hs Mt Ds Rg Cn Nh Fl Mc Lv Ts Og")]%Z%string.
(** [w] is word number [k] of [s]. *)
Definition word_at (s w : text) (k : nat) : Prop :=
  exists a b, s = a ++ w ++ b /\ ~ In " "%char w /\ w <> [] /\ (a = [] \/ exists a', a = a' ++ [" "%char]) /\ (b = [] \/ exists b', b = " "%char :: b') /\
    count_occ ascii_dec a " "%char = k.
Definition element (z : Z) (w : text) : Prop := exists z0 r k, In (z0, r) rows /\ word_at (str r) w k /\ z = (z0 + Z.of_nat k)%Z.
