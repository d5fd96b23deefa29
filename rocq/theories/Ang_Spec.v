(** Angular distributions in ACE words, in ENDF text and in a file. *)
From Coq Require Import ZArith QArith Qcanon List Arith.
From Verif Require Import Num Text Cont_Model Ang_Model.
From Verif Require Endf_Spec.
Import ListNotations.
Local Open Scope nat_scope.

(** ** ACE *)
(** The words [l] from position [i]. *)
Definition words_at (xss : list Qc) (i : nat) (l : list Qc) : Prop := exists pre post, xss = pre ++ l ++ post /\ length pre = i.
(** ENDF and ACE interpolation numbers. *)
Inductive numbered : scheme -> Z -> Prop :=
| num1 : numbered Histogram 1 | num2 : numbered LinLin 2 | num3 : numbered LinLog 3 | num4 : numbered LogLin 4 | num5 : numbered LogLog 5.
Definition nonnegative (l : list point) : Prop := Forall (fun t => 0 <= pp t)%Qc l.

(** What the format describes at one energy: 32 equally probable bins, a table, nothing. *)
Inductive law := Equi (cos : list Qc) | Table (s : scheme) (l : list point) | Isotropic.
(** MCNP manual, ANGULAR DISTRIBUTION block: the locator and what it points to. *)
Inductive laid_out (xss : list Qc) (ld : nat) : Z -> law -> Prop :=
| lo_equi lc cos : (0 < lc)%Z -> length cos = 33 -> words_at xss (ld + Z.to_nat lc - 1) cos -> laid_out xss ld lc (Equi cos)
| lo_table lc s k l : (lc < 0)%Z -> numbered s k -> nonnegative l ->
    words_at xss (ld + Z.to_nat (- lc) - 1) (qz k :: qz (Z.of_nat (length l)) :: map px l ++ map pp l ++ map pc l) ->
    laid_out xss ld lc (Table s l)
| lo_iso : laid_out xss ld 0 Isotropic.
Definition angular (xss : list Qc) (ld ls : nat) (energies : list Qc) (laws : list law) : Prop :=
  exists lcs, words_at xss (ld + ls - 1) (qz (Z.of_nat (length energies)) :: energies ++ map qz lcs) /\
    length laws = length energies /\ Forall2 (laid_out xss ld) lcs laws.

(** The distribution is the one described. *)
Definition means (w : law) (m : mu) : Prop :=
  match w with
  | Isotropic => m = Unif (- (1)) 1
  | Table s l => m = Tab s l
  | Equi cos => exists l, m = Tab Histogram l /\ map px l = cos /\
      (forall i t, nth_error l i = Some t -> (pc t * qz 32)%Qc = qz (Z.of_nat i)) /\
      (* each bin holds a 32nd; nothing beyond the last cosine *)
      (forall i t u, nth_error l i = Some t -> nth_error l (S i) = Some u -> px t <> px u -> (pp t * (px u - px t) * qz 32)%Qc = 1%Qc) /\
      (forall t, nth_error l 32 = Some t -> pp t = 0%Qc)
  end.
Definition increasing (l : list Qc) : Prop := forall i a b, nth_error l i = Some a -> nth_error l (S i) = Some b -> (a < b)%Qc.
(** Cosines in order. *)
Definition proper (w : law) : Prop := match w with Equi cos => increasing cos | _ => True end.

(** ** HDF5 *)
(** Fit for the file. *)
Definition storable (m : mu) : Prop :=
  match m with Tab _ l => nonnegative l | Unif a b => (a < b)%Qc | Bare _ _ | Leg _ => False end.
Definition plain (i : scheme) : Prop := i = Histogram \/ i = LinLin.
Definition plainly (m : mu) : Prop := match m with Tab i _ => plain i | _ => False end.
(** The same distribution, as a table. *)
Definition same_points (m m' : mu) : Prop :=
  match m, m' with
  | Tab i l, Tab i' l' => l' = l /\ (plain i -> i' = i)
  | Unif a b, Tab i' l' => i' = Histogram /\ exists p, l' = [(a, p, 0%Qc); (b, p, 1%Qc)] /\ (p * (b - a))%Qc = 1%Qc
  | _, _ => False
  end.

(** ** ENDF *)
Local Open Scope Z_scope.
Definition lines := list Text.text.
(** A LIST record of Legendre coefficients a_1, a_2, ... at energy [e]. *)
Definition leg_record (ls : lines) (r : Qc * list Qc) : Prop :=
  exists h body t i j n, ls = h :: body /\ Endf_Spec.control_line h t (fst r) i j (Z.of_nat (length (snd r))) n /\
    Endf_Spec.rows Endf_Spec.number_field 6 (snd r) body.
(** A TAB1 record with one region of known scheme and no negative value. *)
Definition tab_record (ls : lines) (r : Qc * scheme * list (Qc * Qc)) : Prop :=
  let '(e, s, pts) := r in
  exists h lr lp t i j nbt k, ls = h :: lr ++ lp /\ numbered s k /\ Forall (fun p => (0 <= snd p)%Qc) pts /\
    Endf_Spec.control_line h t e i j 1 (Z.of_nat (length pts)) /\
    Endf_Spec.rows (Endf_Spec.pair_field Endf_Spec.integer_field) 3 [(nbt, k)] lr /\
    Endf_Spec.rows (Endf_Spec.pair_field Endf_Spec.number_field) 3 pts lp.
(** A TAB2 record announcing [n] records. *)
Definition tab2 (ls : lines) (n : nat) : Prop :=
  exists h lr a b i j regs, ls = h :: lr /\ Endf_Spec.control_line h a b i j (Z.of_nat (length regs)) (Z.of_nat n) /\
    Endf_Spec.rows (Endf_Spec.pair_field Endf_Spec.integer_field) 3 regs lr.
Inductive records {A} (P : lines -> A -> Prop) : lines -> list A -> Prop :=
| rec_nil : records P [] []
| rec_cons l ls r rs : P l r -> records P ls rs -> records P (l ++ ls) (r :: rs).
(** ENDF-102, file 4: HEAD, CONT, [NK] numbers of an obsolete matrix if LVT > 0. *)
Definition mf4_head (ls : lines) (ltt li : Z) : Prop :=
  exists h k old za awr lvt i j a b lct nk nm, ls = h :: k :: old /\
    Endf_Spec.control_line h za awr lvt ltt i j /\ Endf_Spec.control_line k a b li lct nk nm /\
    (0 <= nk) /\ Z.of_nat (length old) = (if 0 <? lvt then (nk + 5) / 6 else 0).
(** Coefficients a_0 = 1, a_1, ... of the density sum (2l+1)/2 a_l P_l. *)
Definition leg_means (r : Qc * list Qc) (e : Qc) (m : mu) : Prop :=
  e = fst r /\ exists c, m = Leg c /\ length c = S (length (snd r)) /\
    forall l a, nth_error (1%Qc :: snd r) l = Some a -> exists b, nth_error c l = Some b /\ (b * qz 2)%Qc = (qz (2 * Z.of_nat l + 1) * a)%Qc.
Definition tab_means (r : Qc * scheme * list (Qc * Qc)) (e : Qc) (m : mu) : Prop :=
  let '(e0, s, pts) := r in e = e0 /\ m = Bare s pts.
(** A list of energies and a list of distributions, item by item. *)
Inductive listed {A} (P : A -> Qc -> mu -> Prop) : list A -> list Qc -> list mu -> Prop :=
| li_nil : listed P [] [] []
| li_cons r rs e es m ms : P r e m -> listed P rs es ms -> listed P (r :: rs) (e :: es) (m :: ms).
