(** Elastic scattering at 0 K. *)
From Coq Require Import ZArith QArith Qcanon List Bool String Sorted.
From Verif Require Import Num Hdf_Model Neut_Model Nuc_Model Thin_Spec Linz_Spec Cold_Model.
Import ListNotations.
Local Open Scope string_scope.
Local Open Scope list_scope.

(** The energies [np.logspace] returns. *)
Definition spans (logs : Qc -> Qc -> list Qc) : Prop :=
  forall a b, (a < b)%Qc -> In a (logs a b) /\ In b (logs a b) /\ forall e, In e (logs a b) -> (a <= e <= b)%Qc.
(** The factors: positive and increasing. *)
Definition factors (fs : list Qc) : Prop := StronglySorted Qclt fs /\ forall f, In f fs -> (0 < f)%Qc.
(** Resonances of a range: energies and widths. *)
Definition has (k : kind) (l : list (Qc * Qc)) : Prop :=
  match k with
  | Breit rows => l = rows
  | Reich rows => Forall2 (fun r p => let '(e, (n, c, (a, b))) := r in exists ma mb, magnitude a ma /\ magnitude b mb /\ p = (e, n + c + ma + mb)%Qc) rows l
  | _ => False
  end.
Definition inside (r : band) (p : Qc * Qc) : Prop := (b_lo r < fst p < b_hi r)%Qc.
(** [l] without what is outside the range. *)
Inductive kept (r : band) : list (Qc * Qc) -> list (Qc * Qc) -> Prop :=
| k_nil : kept r [] []
| k_in p l l' : inside r p -> kept r l l' -> kept r (p :: l) (p :: l')
| k_out p l l' : ~ inside r p -> kept r l l' -> kept r (p :: l) l'.
(** A resonance at [e], after [l1] and before [l2], has its points between [a] and [b]: halfway
    to the resonance before and after it, or the limits of the range. *)
Definition bounds (r : band) (l1 l2 : list (Qc * Qc)) (e a b : Qc) : Prop :=
  match rev l1 with [] => a = b_lo r | (e1, _) :: _ => a = middle e1 e end /\
  match l2 with [] => b = b_hi r | (e2, _) :: _ => b = middle e e2 end.
Definition cell (r : band) (l : list (Qc * Qc)) (e g a b : Qc) : Prop := exists l1 l2, l = l1 ++ (e, g) :: l2 /\ bounds r l1 l2 e a b.
(** A point next to a resonance of width [g]. *)
Definition beside (fs : list Qc) (e g a b p : Qc) : Prop :=
  exists f, ((In f fs /\ p = e - g * f /\ a < p) \/ (exists f0 fs', fs = f0 :: fs' /\ In f fs' /\ p = e + g * f /\ p < b))%Qc.
Definition next_to (fs : list Qc) (r : band) (l : list (Qc * Qc)) (p : Qc) : Prop := exists e g a b, cell r l e g a b /\ beside fs e g a b p.
Definition ascending (l : list (Qc * Qc)) : Prop := StronglySorted (fun p q => (fst p <= fst q)%Qc) l.
Definition distinct (l : list (Qc * Qc)) : Prop := StronglySorted (fun p q => (fst p < fst q)%Qc) l.
(** The ranges that are tabulated. *)
Definition covered (l : list band) : list band := filter (fun r => match b_kind r with Unresolved => false | _ => true end) l.
(** [x] and [y] tabulate [f] from [lo] to [hi]: increasing energies, exact values, and
    between neighbours other points, none further apart than the midpoint rule allows,
    near the line. *)
Definition tabulates (f : Qc -> Qc) (es : list Qc) (x y : list Qc) : Prop :=
  y = map f x /\ StronglySorted Qclt x /\ hd_error x = hd_error es /\ last x 0%Qc = last es 0%Qc /\
  exists o ks, filled f (qc 1 1000) es o /\ thinned (qc 1 1000) o (map f o) ks /\ x = map (fun i => nth i o 0%Qc) ks.
(** A range in which [x] counts. *)
Definition counts (x : Qc) (r : band) : Prop := (b_lo r <= x <= b_hi r)%Qc /\ match b_kind r with Unresolved | Radius => False | _ => True end.
(** The ranges of [rs] that count are [l]. *)
Inductive counted (x : Qc) : list band -> list band -> Prop :=
| c_nil : counted x [] []
| c_in r l l' : counts x r -> counted x l l' -> counted x (r :: l) (r :: l')
| c_out r l l' : ~ counts x r -> counted x l l' -> counted x (r :: l) l'.
(** Nothing changes but elastic scattering at 0 K. *)
Definition with_cold (x y : list Qc) (self d : nuclide) : Prop :=
  d_endf d = d_endf self /\ d_name d = d_name self /\ d_z d = d_z self /\ d_a d = d_a self /\ d_m d = d_m self /\ d_awr d = d_awr self /\ d_kts d = d_kts self /\ d_urr d = d_urr self /\
  look "0K" (d_energy d) = Some x /\ (forall k, k <> "0K" -> look k (d_energy d) = look k (d_energy self)) /\
  map fst (d_rx d) = map fst (d_rx self) /\
  (forall mt, mt <> 2%Z -> reaction_at (d_rx d) mt = reaction_at (d_rx self) mt) /\
  exists r r', reaction_at (d_rx self) 2%Z = Some r /\ reaction_at (d_rx d) 2%Z = Some r' /\
    look "0K" (x_xs r') = Some (Table (mkFn x y [Z.of_nat (List.length x)] [2%Z]) None) /\ (forall k, k <> "0K" -> look k (x_xs r') = look k (x_xs r)) /\
    x_mt r' = x_mt r /\ x_q r' = x_q r /\ x_cm r' = x_cm r /\ x_redundant r' = x_redundant r /\ x_products r' = x_products r /\ x_derived r' = x_derived r.
