(** Atomic masses and weights. *)
From Coq Require Import ZArith NArith QArith Qcanon List String Ascii.
From Verif Require Import Num Text Dec PyNum.
From Verif Require Sampler_Model Sab_Model.
Import ListNotations.
Local Open Scope list_scope.
Local Open Scope nat_scope.

(** A symbol, a mass number, a mass. *)
Record nucl := mkNucl { n_symbol : text; n_mass_number : N; n_mass : Qc }.
(** A line of the file: the mass in whole units, six digits of its fraction, then a point or
    a mark for estimates, and more digits of the fraction. *)
Definition mass_text (l : text) (n : nucl) : Prop :=
  exists pre x c y0 y1 mid w u c1 six c2 more z rest,
    l = pre ++ (repeat sp x ++ decN (n_mass_number n)) ++ c :: (repeat sp y0 ++ n_symbol n ++ repeat sp y1) ++ mid ++ (repeat sp w ++ decN u) ++ c1 :: six ++ c2 :: (more ++ repeat sp z) ++ rest /\
    List.length pre = 16 /\ x + List.length (decN (n_mass_number n)) = 3 /\ y0 + List.length (n_symbol n) + y1 = 2 /\ List.length mid = 74 /\
    w + List.length (decN u) = 3 /\ List.length six = 6 /\ List.length more + z = 5 /\
    n_symbol n <> [] /\ forallb (fun c => negb (is_space c)) (n_symbol n) = true /\ forallb is_digit six = true /\ forallb is_digit more = true /\
    n_mass n = (qz (Z.of_N u) + qz (Z.of_N (dval (six ++ more))) / qz (10 ^ Z.of_nat (6 + List.length more)))%Qc.
(** The file: 39 lines of explanation. *)
Definition file_text (ls : list text) (ns : list nucl) : Prop := exists h t, ls = h ++ t /\ List.length h = 39 /\ Forall2 mass_text t ns.
(** Names, without regard to case. *)
Definition same_name (a b : text) : Prop := Sampler_Model.lower a = Sampler_Model.lower b.
Definition name_of (n : nucl) : text := n_symbol n ++ decN (n_mass_number n).
(** The five elements for which there are data of the natural mixture. *)
Definition mixtures : list string := ["C"; "Zn"; "Pt"; "Os"; "Tl"]%string.
Definition mixture (el : string) : text := Sampler_Model.lower (str el) ++ ["0"%char].
Definition distinct (ns : list nucl) : Prop := NoDup (map (fun n => Sampler_Model.lower (name_of n)) ns ++ map mixture mixtures).
(** [s] is a name of [n]: any case, any isomeric state behind an underscore. *)
Definition names (s : text) (n : nucl) : Prop := exists t, same_name t (name_of n) /\ ~ In "_"%char t /\ (s = t \/ exists m, s = t ++ "_"%char :: m).

(** The natural isotopes of an element with abundances and masses. *)
Definition isotope_of (el : string) (iso : string) : Prop := exists a, str iso = str el ++ decN a.
Inductive composed (ns : list nucl) (el : string) : list (string * Q) -> list (Qc * Qc) -> Prop :=
| co_nil : composed ns el [] []
| co_other iso ab t l : ~ isotope_of el iso -> composed ns el t l -> composed ns el ((iso, ab) :: t) l
| co_isotope iso ab t l n : isotope_of el iso -> In n ns -> name_of n = str iso -> composed ns el t l -> composed ns el ((iso, ab) :: t) ((Q2Qc ab, n_mass n) :: l).
Definition composition (ns : list nucl) (el : string) (l : list (Qc * Qc)) : Prop := composed ns el Sab_Model.natural_abundance l.
Definition mean (l : list (Qc * Qc)) : Qc := qsum (map (fun p => fst p * snd p)%Qc l).
Definition symbol (el : string) : Prop := el <> EmptyString /\ forallb (fun c => negb (is_digit c)) (str el) = true.
