(** Nuclide names and identifiers.
    Source: /repo/ASAPy/data/data.py:113-138, 319-363; /repo/ASAPy/data/ace.py:31-93.
    Simplifications: texts are ASCII (the pattern for digits also matches other digits in Python). *)
From Coq Require Import ZArith List Bool Arith Ascii String NArith.
From Verif Require Import Text Dec PyNum.
Import ListNotations.
Local Open Scope Z_scope.

(** data.py:113-133: ATOMIC_SYMBOL, from 0 on. *)
Definition symbols : list text := map str
  ["n"; "H"; "He"; "Li"; "Be"; "B"; "C"; "N"; "O"; "F"; "Ne"; "Na"; "Mg"; "Al"; "Si"; "P"; "S"; "Cl";
   "Ar"; "K"; "Ca"; "Sc"; "Ti"; "V"; "Cr"; "Mn"; "Fe"; "Co"; "Ni"; "Cu"; "Zn"; "Ga"; "Ge"; "As"; "Se";
   "Br"; "Kr"; "Rb"; "Sr"; "Y"; "Zr"; "Nb"; "Mo"; "Tc"; "Ru"; "Rh"; "Pd"; "Ag"; "Cd"; "In"; "Sn"; "Sb";
   "Te"; "I"; "Xe"; "Cs"; "Ba"; "La"; "Ce"; "Pr"; "Nd"; "Pm"; "Sm"; "Eu"; "Gd"; "Tb"; "Dy"; "Ho"; "Er";
   "Tm"; "Yb"; "Lu"; "Hf"; "Ta"; "W"; "Re"; "Os"; "Ir"; "Pt"; "Au"; "Hg"; "Tl"; "Pb"; "Bi"; "Po"; "At";
   "Rn"; "Fr"; "Ra"; "Ac"; "Th"; "Pa"; "U"; "Np"; "Pu"; "Am"; "Cm"; "Bk"; "Cf"; "Es"; "Fm"; "Md"; "No";
   "Lr"; "Rf"; "Db"; "Sg"; "Bh"; "Hs"; "Mt"; "Ds"; "Rg"; "Cn"; "Nh"; "Fl"; "Mc"; "Lv"; "Ts"; "Og"]%string.
(** [ATOMIC_SYMBOL[Z]]; [None] is KeyError. *)
Definition symbol (z : Z) : option text := if z <? 0 then None else nth_error symbols (Z.to_nat z).
(** data.py:134: [ATOMIC_NUMBER[symbol]]. *)
Fixpoint position (s : text) (l : list text) : option Z :=
  match l with
  | [] => None
  | t :: r => if eqt s t then Some 0 else option_map (Z.add 1) (position s r)
  end.
Definition number (s : text) : option Z := position s symbols.

(** data.py:319-340. *)
Definition gnd_name (z a m : Z) : option text :=
  option_map (fun s => if 0 <? m then s ++ decZ a ++ str "_m" ++ decZ m else s ++ decZ a)%list (symbol z).

Definition is_upper (c : ascii) : bool := let n := nat_of_ascii c in ((65 <=? n) && (n <=? 90))%nat.
Definition is_lower (c : ascii) : bool := let n := nat_of_ascii c in ((97 <=? n) && (n <=? 122))%nat.
Fixpoint lowers (t : text) : text * text :=
  match t with
  | c :: r => if is_lower c then let (a, b) := lowers r in (c :: a, b) else ([], t)
  | [] => ([], [])
  end.
(** data.py:138: a letter of A-Z or n and letters a-z; digits; perhaps an underscore, e
    or m and digits; matched from the start; the end
    is not anchored; each part takes as much as it can (no part can take the first
    character of the next, so there is nothing to try again). *)
Definition state_of (t : text) : text :=
  match t with
  | u :: k :: r =>
      if eqc u "_" && (eqc k "e" || eqc k "m") then
        match digits r with ([], _) => [] | (d, _) => u :: k :: d end
      else []
  | _ => []
  end.
Definition matched (t : text) : option (text * text * text) :=
  match t with
  | c :: r =>
      if is_upper c || eqc c "n" then
        let (l, r1) := lowers r in
        match digits r1 with
        | ([], _) => None
        | (d, r2) => Some (c :: l, d, state_of r2)
        end
      else None
  | [] => None
  end.
(** data.py:343-363; [None] is ValueError (no match) or KeyError (no such element). *)
Definition zam (t : text) : option (Z * Z * Z) :=
  match matched t with
  | None => None
  | Some (s, a, st) =>
      let m := match st with [] => 0 | _ => Z.of_N (dval (skipn 2 st)) end in
      option_map (fun z => (z, Z.of_N (dval a), m)) (number s)
  end.

(** ace.py:85-86: one hundred is taken off until the mass number fits. *)
Fixpoint fit (fuel : nat) (z a : Z) : Z :=
  match fuel with
  | O => a
  | S k => if 3 * z <? a then fit k z (a - 100) else a
  end.
Inductive scheme := Nndc | Mcnp.
(** ace.py:31-93: name, element, Z, A, metastable state; [None] is KeyError. *)
Definition get_metadata (zaid : Z) (s : scheme) : option (text * text * Z * Z * Z) :=
  let z0 := zaid / 1000 in
  let a0 := zaid mod 1000 in
  let '(z, m) :=
    match s with
    | Mcnp =>
        if 1000000 <? zaid then (z0 mod 1000, if zaid =? 1095242 then 0 else zaid / 1000000)
        else (z0, if zaid =? 95242 then 1 else if zaid =? 95642 then 0 else if 300 <? a0 then 1 else 0)
    | Nndc => (z0, if 300 <? a0 then 1 else 0)
    end in
  let a := fit (Z.to_nat (a0 - 3 * z)) z a0 in
  match symbol z, gnd_name z a m with
  | Some e, Some n => Some (n, e, z, a, m)
  | _, _ => None
  end.
