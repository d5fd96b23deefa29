(** The energy released by fission. *)
From Coq Require Import ZArith QArith Qcanon List String.
From Verif Require Import Num Text Endf_Spec Neut_Model Hdf_Model Fer_Model.
From Verif Require Dcy_Spec.
Import ListNotations.
Local Open Scope list_scope.
Local Open Scope Z_scope.

(** ** Text *)
(** Per order of the energy, nine values with their uncertainties: fragments, prompt
    neutrons, delayed neutrons, prompt photons, delayed photons, betas, neutrinos, and two sums. *)
Definition order := list (Qc * Qc).
Definition entries (o : order) : list Qc := flat_map (fun p => [fst p; snd p]) o.
(** TAB1 records, each with the number of its quantity. *)
Inductive tables_text : list (Z * fn) -> list text -> Prop :=
| tt_nil ls : tables_text [] ls
| tt_cons k t ts h c d i lr lp ls : control_line h c d i k (Z.of_nat (List.length (fbp t))) (Z.of_nat (List.length (fx t))) ->
    List.length (fint t) = List.length (fbp t) -> List.length (fy t) = List.length (fx t) ->
    Endf_Spec.rows (pair_field integer_field) 3 (combine (fbp t) (fint t)) lr -> Endf_Spec.rows (pair_field number_field) 3 (combine (fx t) (fy t)) lp ->
    tables_text ts ls -> tables_text ((k, t) :: ts) (h :: lr ++ lp ++ ls).
(** The section: [lfc] says whether there are tables. *)
Definition section_text (lfc : Z) (os : list order) (ts : list (Z * fn)) (ls : list text) : Prop :=
  exists h za awr i n a b i' n' l1 l2, ls = h :: l1 ++ l2 /\
    control_line h za awr i lfc n (Z.of_nat (List.length ts)) /\
    os <> [] /\ Forall (fun o => List.length o = 9%nat) os /\
    Dcy_Spec.list_at a b i' (Z.of_nat (List.length os) - 1) n' (flat_map entries os) l1 /\
    tables_text ts l2.
(** The coefficients of quantity [i]. *)
Definition coefficients (i : nat) (os : list order) : list Qc := map (fun o => fst (nth i o (0%Qc, 0%Qc))) os.
(** A coefficient of the second order left in MeV: it changes the energy by more than 100
    MeV at 5 MeV. *)
Definition in_mev (c2 : Qc) : Prop := (qz 100000000 < qabs c2 * qz 25000000000000)%Qc.

(** ** Neutrons per fission *)
Section Spec.
Context {D A : Type} (R : readers D A).
Definition counts (p : product (D := D) (A := A)) : Prop := p_neutron p = true /\ (p_mode p = Prompt \/ p_mode p = Total).
(** The yield of the only such product. *)
Definition sole (ps : list (product (D := D) (A := A))) (nu : yield) : Prop :=
  exists before p after, ps = before ++ p :: after /\ counts p /\ p_yield p = nu /\ forall q, In q (before ++ after) -> ~ counts q.
(** Fission is MT 18 unless redundant or missing, then MT 19. *)
Definition fission_in (rs : list (Z * reaction (D := D) (A := A))) (r : reaction) : Prop :=
  NoDup (map fst rs) /\
  ((In (18, r) rs /\ r_redundant r = false) \/ ((forall r', In (18, r') rs -> r_redundant r' = true) /\ In (19, r) rs)).

(** ** Quantities *)
Definition parts (r : release) : list yield :=
  [e_fragments r; e_prompt_neutrons r; e_delayed_neutrons r; e_prompt_photons r; e_delayed_photons r; e_betas r; e_neutrinos r].
(** Prompt neutrons carry 1.307 of the energy and 8.07 MeV less per neutron more than at
    energy 0, or than at the first point. *)
Definition fine_nu (nu : yield) : Prop :=
  match nu with Poly c => c <> [] | Tabd t => fx t <> [] /\ List.length (fy t) = List.length (fx t) end.
Definition by_neutrons (e0 : Qc) (nu f : yield) : Prop :=
  match nu with
  | Poly c => exists p, f = Poly p /\ forall e, horner p e = (e0 + qc 1307 1000 * e - qz 8070000 * (horner c e - horner c 0))%Qc
  | Tabd t => exists ys, f = Tabd (mkFn (fx t) ys (fbp t) (fint t)) /\ List.length ys = List.length (fx t) /\
      forall j, (j < List.length (fx t))%nat -> nth j ys 0%Qc = (e0 + qc 1307 1000 * nth j (fx t) 0 - qz 8070000 * (nth j (fy t) 0 - nth 0 (fy t) 0))%Qc
  end.
(** What a quantity is, without a table of it: a polynomial, or by the formulas of Sher and
    Beck. *)
Definition given (nu : yield) (i : nat) (os : list order) (f : yield) : Prop :=
  match coefficients i os with
  | [] => False
  | [e0] =>
      match i with
      | 1%nat => by_neutrons e0 nu f
      | 4%nat | 5%nat => f = Poly [e0; qc (-75) 1000]
      | 6%nat => f = Poly [e0; qc (-105) 1000]
      | _ => f = Poly [e0]
      end
  | [c0; c1; c2] => (in_mev c2 -> f = Poly [c0; c1; (c2 / qz 1000000)%Qc]) /\ (~ in_mev c2 -> f = Poly [c0; c1; c2])
  | c => f = Poly c
  end.
(** The last table of quantity [i] (counted from 0), if there is one. *)
Fixpoint tabulated_as (i : nat) (ts : list (Z * fn)) : option fn :=
  match ts with
  | [] => None
  | (k, t) :: r => match tabulated_as i r with Some u => Some u | None => if k =? Z.of_nat (S i) then Some t else None end
  end.

(** The datasets in HDF5. *)
Definition stored_names : list string :=
  ["fragments"; "prompt_neutrons"; "delayed_neutrons"; "prompt_photons"; "delayed_photons"; "betas"; "neutrinos"; "q_prompt"; "q_recoverable"]%string.

(** ** Functions *)
Definition rising (l : list Qc) : Prop := forall i, (S i < List.length l)%nat -> (nth i l 0 < nth (S i) l 0)%Qc.
(** A table in the sense of ENDF-6, linear throughout. *)
Definition linear_table (t : fn) : Prop :=
  (2 <= List.length (fx t))%nat /\ List.length (fy t) = List.length (fx t) /\ rising (fx t) /\
  List.length (fint t) = List.length (fbp t) /\
  (forall k, (k < List.length (fbp t))%nat -> 1 < nth k (fbp t) 0) /\
  (forall k, (S k < List.length (fbp t))%nat -> nth k (fbp t) 0 < nth (S k) (fbp t) 0) /\
  last (fbp t) 0 = Z.of_nat (List.length (fx t)) /\ forall s, In s (fint t) -> s = 2.
(** numpy's closeness. *)
Definition close (a b : Qc) : Prop := (qabs (a - b) <= qc 1 100000000000000 + qc 1 100000 * qabs b)%Qc.
Definition apart (a b e : Qc) : Prop := e = a \/ e = b \/ (~ close e a /\ ~ close e b).
(** A linear table from [a] to [b] with no other point close to these, or a straight line. *)
Definition spans (a b : Qc) (f : yield) : Prop :=
  match f with
  | Poly c => c <> [] /\ (List.length c <= 2)%nat
  | Tabd t => linear_table t /\ nth 0 (fx t) 0%Qc = a /\ last (fx t) 0%Qc = b /\ forall u, In u (fx t) -> apart a b u
  end.
(** [g] at [e] is the sum of the values of [fs], less [off]. *)
Definition adds (fs : list yield) (off : Qc) (g : yield) (e : Qc) : Prop :=
  exists vs, Forall2 (fun f v => value_at R f e = Some v) fs vs /\ value_at R g e = Some (qsum vs - off)%Qc.
(** The five derived functions with what they consist of and what is taken away. *)
Definition derived (r : release) (P : list yield -> (Qc -> Qc) -> yield -> Prop) : Prop :=
  exists rec tot qp qr qt,
    recoverable R r = Some rec /\ P (firstn 6 (parts r)) (fun _ => 0%Qc) rec /\
    total R r = Some tot /\ P (parts r) (fun _ => 0%Qc) tot /\
    q_prompt R r = Some qp /\ P [e_fragments r; e_prompt_neutrons r; e_prompt_photons r] (fun e => e) qp /\
    q_recoverable R r = Some qr /\ P (firstn 6 (parts r)) (fun e => e) qr /\
    q_total R r = Some qt /\ P (parts r) (fun e => e) qt.
End Spec.
