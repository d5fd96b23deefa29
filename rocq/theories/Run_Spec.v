(** Vocabulary for whole runs of the sampling program. *)
From Verif Require Import Num XNum Text Dec Chi_Model AceEdit_Model AceEdit_Spec MapGroups_Spec Samp_Model Samp_Spec Run_Model.
From Verif Require Store_Model Sampler_Model Sampler_Spec.
From Coq Require Import ZArith.
Local Open Scope list_scope.
Local Open Scope nat_scope.

(** A drawn sample with finite values, none negative. *)
Definition clean (s : list xnum) : Prop := forall x, In x s -> exists q, x = Fin q /\ (0 <= q)%Qc.
(** [s] is number [n] (from 0) of the clean samples among those drawn. *)
Inductive nth_good : list (list xnum) -> nat -> list xnum -> Prop :=
| ng_here s ss : clean s -> nth_good (s :: ss) 0 s
| ng_later s s' ss n : clean s' -> nth_good ss n s -> nth_good (s' :: ss) (S n) s
| ng_dropped s s' ss n : ~ clean s' -> nth_good ss n s -> nth_good (s' :: ss) n s.

(** [num] samples were drawn, with [G] finite values each. *)
Definition real_draws (num G : nat) (ss : list (list xnum)) : Prop :=
  length ss = num /\ forall s, In s ss -> length s = G /\ forall x, In x s -> exists q, x = Fin q.
(** Stored groups: bounds decreasing, [lo] the lowest one, means finite and not zero. *)
Definition good_data (g : list Store_Model.group) (lo : Qc) : Prop :=
  g <> [] /\ decreasing (map Store_Model.e_high g) /\ (lo < last (map Store_Model.e_high g) 0)%Qc /\
  In lo (map Store_Model.e_low g) /\ (forall x, In x (map Store_Model.e_low g) -> (lo <= x)%Qc) /\
  forall r, In r g -> exists q, Store_Model.xsec r = Fin q /\ q <> 0%Qc.
(** The factor of group number [k] (from 0): times the stored mean it is the value drawn. *)
Definition right_factor (g : list Store_Model.group) (s : list xnum) (k : nat) (q : Qc) : Prop :=
  exists r mean x, nth_error g k = Some r /\ Store_Model.xsec r = Fin mean /\ nth_error s k = Some (Fin x) /\ (q * mean = x)%Qc.
(** What sample [n] asks for reaction [m]. *)
Definition right_request (G : Z -> list Store_Model.group) (SS : Z -> list (list xnum)) (n : nat) (m : Z) (r : request) : Prop :=
  rq_mt r = m /\ rq_high r = map Store_Model.e_high (G m) /\ rq_low r = map Store_Model.e_low (G m) /\
  exists s, nth_good (SS m) n s /\
    forall k, k < length (G m) -> exists q, rq_col r (Z.of_nat (S k)) = Some q /\ right_factor (G m) s k q.

(** The reactions asked for: those given, or all stored ones if none is given. *)
Definition asked (a : args) (st : Store_Model.store) (ms : list Z) : Prop :=
  (a_mts a <> [] /\ ms = a_mts a) \/ (a_mts a = [] /\ Store_Model.stored_mts st = Some ms).
(** A number the file can be sampled for (nu-bar and the spectrum go with fission). *)
Definition offered (t : table) (m : Z) : Prop :=
  In m (map fst (reactions t)) \/ ((m = 452 \/ m = 1018)%Z /\ In 18%Z (map fst (reactions t))).
(** [adj]: the members of [ms] with [P], in order. *)
Inductive kept (P : Z -> Prop) : list Z -> list Z -> Prop :=
| kept_nil : kept P [] []
| kept_in m ms adj : P m -> kept P ms adj -> kept P (m :: ms) (m :: adj)
| kept_out m ms adj : ~ P m -> kept P ms adj -> kept P (m :: ms) adj.

(** As many samples as asked for can be made. *)
Definition enough (a : args) : Prop := a_over a = (-1)%Z \/ (Z.of_nat (a_num a) <= a_over a)%Z.
(** A run that can succeed: [adj] the reactions sampled, [G] their stored groups, [SS] the
    values drawn for them. *)
Record fit_run (draw : list Store_Model.group -> list (list Store_Model.ext) -> bool -> Sampler_Model.dist -> nat -> list (list xnum))
    (a : args) (st : Store_Model.store) (t : table) (z m : Z) (adj : list Z)
    (G : Z -> list Store_Model.group) (SS : Z -> list (list xnum)) : Prop := {
  fit_over : enough a;
  fit_writes : a_plot_only a = false;
  fit_table : wf_table t;
  fit_mts : exists ms, asked a st ms /\ kept (offered t) ms adj;
  fit_some : adj <> [];
  fit_once : NoDup adj;
  fit_sigma : ~ In 1018%Z adj;
  fit_stored : exists cr d, In (Sampler_Model.lower (a_dist a), (cr, d)) Sampler_Spec.the_kinds /\
    forall x, In x adj -> exists c, Store_Model.load st (zaid_text z m) (decZ x) = Some (G x, c) /\ SS x = draw (G x) c cr d (a_num a);
  fit_drawn : forall x, In x adj -> real_draws (a_num a) (length (G x)) (SS x);
  fit_data : forall x, In x adj -> exists r0 lo, rdata t x = Some r0 /\ length (ty r0) = length (tx r0) /\ good_data (G x) lo /\ ~ In lo (tx r0);
  fit_enough : forall x n s, In x adj -> nth_good (SS (hd 0%Z adj)) n s -> exists s', nth_good (SS x) n s' }.

(** A value times the factor of the group of its energy (bounds [hs] downwards to [lo]), 1
    outside; a value of 0 counts as 1. *)
Definition scaled_by (hs : list Qc) (lo : Qc) (v : nat -> Qc) (e y y' : Qc) : Prop :=
  exists f, right_value hs v lo (hd 0%Qc hs) 1%Qc e f /\ (y <> 0%Qc -> y' = (f * y)%Qc) /\ (y = 0%Qc -> y' = f).
(** The arguments without the number of oversamples. *)
Definition same_but_over (a a' : args) : Prop :=
  a_mts a = a_mts a' /\ a_num a = a_num a' /\ a_dist a = a_dist a' /\ a_plot_only a = a_plot_only a'.
