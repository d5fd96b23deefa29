(** What a table in ACE form says about neutrons emitted, and what is read of it. *)
From Coq Require Import ZArith QArith Qcanon List Bool Arith.
From Verif Require Import Num Neut_Model Neut_Spec.
From Verif Require AceEdit_Model.
Import ListNotations.
Local Open Scope Z_scope.

(** ** Functions *)
(** A function in ACE form: number of regions, breakpoints, schemes, number of points,
    abscissae (MeV), ordinates. *)
Definition table_words (t : fn) : list Qc :=
  qz (Z.of_nat (length (fbp t))) :: map qz (fbp t) ++ map qz (fint t) ++ qz (Z.of_nat (length (fx t))) :: fx t ++ fy t.
Definition table_fine (t : fn) : Prop := length (fint t) = length (fbp t) /\ length (fy t) = length (fx t).
(** The same function of the energy in eV; no regions: one, linear. *)
Definition in_ev (t : fn) : fn :=
  mkFn (map (fun e => e * qz 1000000)%Qc (fx t)) (fy t)
       (match fbp t with [] => [Z.of_nat (length (fx t))] | b => b end) (match fbp t with [] => [2] | _ => fint t end).
(** Words that are not values of cross sections. *)
Definition kept (a : ace) (c : content) (p : Z) (l : list Qc) : Prop :=
  stands (xss a) p l /\ forall j, p <= j < p + Z.of_nat (length l) -> ~ valued a c j.

(** ** Neutrons per fission *)
(** A polynomial in the energy in MeV, or a table. *)
Inductive nubar := NuPoly (l : list Qc) | NuTable (t : fn).
Definition nu_words (f : nubar) : list Qc :=
  match f with NuPoly l => qz 1 :: qz (Z.of_nat (length l)) :: l | NuTable t => qz 2 :: table_words t end.
Definition nu_fine (f : nubar) : Prop := match f with NuPoly l => l <> [] | NuTable t => table_fine t end.
(** The value of a polynomial. *)
Fixpoint poly_at (l : list Qc) (e : Qc) : Qc := match l with [] => 0 | c :: r => c + e * poly_at r e end%Qc.
(** [y] is [f] as a function of the energy in eV. *)
Definition same_nu (f : nubar) (y : yield) : Prop :=
  match f, y with
  | NuPoly l, Poly l' => length l' = length l /\ forall e, poly_at l' (e * qz 1000000)%Qc = poly_at l e
  | NuTable t, Tabd t' => t' = in_ev t
  | _, _ => False
  end.
(** Delayed neutrons: their number, and for each group of precursors the decay constant (per
    shake) and the probability. *)
Record delayed := mkDelayed { dl_nu : fn; dl_groups : list (Qc * fn) }.
Definition group_words (g : Qc * fn) : list Qc := fst g :: table_words (snd g).
(** Either one number of neutrons, or that of prompt and that of all neutrons. *)
Inductive numbers := One (f : nubar) | Both (prompt total : nubar).
Record fission := mkFission { fi_nu : numbers; fi_delayed : option delayed }.
(** Blocks NU, DNU and BDD. *)
Record tells (a : ace) (c : content) (f : fission) : Prop := {
  t_block : jxs a 2 <> 0;
  t_nu : match fi_nu f with
         | One nu => nu_fine nu /\ kept a c (jxs a 2) (nu_words nu)
         | Both p t => nu_fine p /\ nu_fine t /\ exists k, 0 < k /\ kept a c (jxs a 2) [qz (- k)] /\
                         kept a c (jxs a 2 + 1) (nu_words p) /\ kept a c (jxs a 2 + k + 1) (nu_words t)
         end;
  t_delayed : match fi_delayed f with
              | None => jxs a 24 <= 0
              | Some d => 0 < jxs a 24 /\ nxs a 8 = Z.of_nat (length (dl_groups d)) /\
                          table_fine (dl_nu d) /\ (forall g, In g (dl_groups d) -> table_fine (snd g) /\ (0 <= fst g)%Qc /\ fx (snd g) <> []) /\
                          kept a c (jxs a 24 + 1) (table_words (dl_nu d)) /\ kept a c (jxs a 25) (concat (map group_words (dl_groups d)))
              end }.

(** Reaction [i] (from 0) emits neutrons, TYR being [ty]. *)
Definition emits (a : ace) (i : nat) : Prop := Z.of_nat i < nxs a 5.
Definition fissions (mt : Z) : Prop := 18 <= mt <= 21 \/ mt = 38.
Section Read.
Context {D A : Type}.
(** Products of the reaction read for [mt]. *)
Definition products_of (n : neutron (D:=D) (A:=A)) (mt : Z) (ps ds : list product) : Prop :=
  exists r, AceEdit_Model.lookup mt (n_reactions n) = Some r /\ r_products r = ps /\ r_derived r = ds.
(** The neutron that is not delayed. *)
Definition first_neutron (ps : list (@product D A)) (m : mode) (y : yield) : Prop :=
  exists p r, ps = p :: r /\ p_neutron p = true /\ p_mode p = m /\ p_rate p = 0%Qc /\ p_yield p = y.
(** All groups have constant probabilities [ps]. *)
Definition constant (g : list (Qc * fn)) (ps : list Qc) : Prop :=
  Forall2 (fun h p => fy (snd h) <> [] /\ forall v, In v (fy (snd h)) -> v = p) g ps.
Definition sum (l : list Qc) : Qc := fold_right Qcplus 0%Qc l.
(** The delayed neutrons of the reaction. *)
Definition delayed_of (ps : list (@product D A)) : list product :=
  filter (fun p => p_neutron p && match p_mode p with Delayed => true | _ => false end) ps.
End Read.
(** ** Distributions *)
(** XSS with some of the negative cross sections set to 0. *)
Definition partly (a : ace) (c : content) (x : list Qc) : Prop :=
  length x = length (xss a) /\
  forall p v, nth_error (xss a) p = Some v -> exists v', nth_error x p = Some v' /\ (v' = v \/ v' = clip v) /\ (~ valued a c (Z.of_nat p) -> v' = v).
(** Block DLW: the laws chained from locator [lnw] on, each with the function saying where
    it applies. *)
Inductive chained (a : ace) (c : content) : Z -> list (Z * fn) -> Prop :=
| ch_end lnw : lnw <= 0 -> chained a c lnw []
| ch_law lnw next t l : 0 < lnw -> table_fine t -> kept a c (jxs a 11 + lnw - 1) [qz next] -> kept a c (jxs a 11 + lnw + 2) (table_words t) ->
    chained a c next l -> chained a c lnw ((lnw, t) :: l).
