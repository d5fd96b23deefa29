(** C48, C49: automatic numbers and equality of data objects. *)
From Coq Require Import List Bool Arith ZArith QArith Qcanon Lia.
From Verif Require Import Num XNum Text Mixin_Model Mixin_Spec Mixin_Proofs.
Import ListNotations.
Local Open Scope nat_scope.

(** C48: an automatic number was neither given nor reserved before. *)
Theorem C48_fresh : forall l i u w, ~ In Reset l -> nth_error l i = Some Auto ->
  nth_error (snd (history fresh_ids l)) i = Some (Assigned u w) ->
  forall j o a, j < i -> nth_error l j = Some o -> nth_error (snd (history fresh_ids l)) j = Some a -> ~ takes u o a.
Proof. exact auto_fresh. Qed.
Print Assumptions C48_fresh.
(** A warning is given exactly when the number was taken before, and never for
    automatic numbers. *)
Theorem C48_warned : forall l i o u w, ~ In Reset l -> nth_error l i = Some o -> nth_error (snd (history fresh_ids l)) i = Some (Assigned u w) ->
  (w = true <-> exists j o' a', j < i /\ nth_error l j = Some o' /\ nth_error (snd (history fresh_ids l)) j = Some a' /\ takes u o' a') /\
  (o = Auto -> w = false).
Proof. exact warned_exact. Qed.
Print Assumptions C48_warned.
(** The automatic number is the first free one from the counter on. *)
Theorem C48_first_free : forall s, exists u, snd (do_op s Auto) = Assigned u false /\ ~ In u (used_ids s) /\ (next_id s <= u)%Z /\
  forall m, (next_id s <= m < u)%Z -> In m (used_ids s).
Proof. intros s. eexists. split; [reflexivity|]. exact (skip_fresh (used_ids s) (next_id s)). Qed.
Print Assumptions C48_first_free.
(** Numbers given by hand are not kept apart, and a reset forgets. *)
Theorem C48_distinct_refuted : exists l u, ~ In Reset l /\ nth_error (snd (history fresh_ids l)) 0 = Some (Assigned u false) /\
  nth_error (snd (history fresh_ids l)) 1 = Some (Assigned u true).
Proof. exists [Auto; Given 1], 1%Z. repeat split. intros [H|[H|[]]]; discriminate. Qed.
Print Assumptions C48_distinct_refuted.
Theorem C48_reset_refuted : exists l u, nth_error (snd (history fresh_ids l)) 0 = Some (Assigned u false) /\
  nth_error l 2 = Some Auto /\ nth_error (snd (history fresh_ids l)) 2 = Some (Assigned u false).
Proof. now exists [Auto; Reset; Auto], 1%Z. Qed.
Print Assumptions C48_reset_refuted.

(** C49: equality can be turned round if both objects have the same attributes. *)
Theorem C49_symmetric : forall sub a b, proper a -> proper b -> cls a = cls b -> (forall k, In k (names a) <-> In k (names b)) ->
  eq_obj sub a b = eq_obj sub b a.
Proof. exact eq_sym_same. Qed.
Print Assumptions C49_symmetric.
(** What it takes in general, for objects of one class. *)
Theorem C49_turned : forall sub a b, proper a -> proper b -> cls a = cls b -> eq_obj sub a b = true ->
  (eq_obj sub b a = true <-> forall k, In k (names b) -> ~ In k (names a) -> getattr k (attrs b) = VNone).
Proof. exact eq_back. Qed.
Print Assumptions C49_turned.
Theorem C49_reflexive : forall sub a, proper a -> sub (cls a) (cls a) = true ->
  (eq_obj sub a a = true <-> forall k v, In (k, v) (attrs a) -> no_nan v).
Proof. exact eq_refl_iff. Qed.
Print Assumptions C49_reflexive.
Theorem C49_transitive : forall sub a b c, (forall x y z, sub x y = true -> sub y z = true -> sub x z = true) ->
  proper a -> proper b -> (forall k v, In (k, v) (attrs a) -> v <> VNone) ->
  eq_obj sub a b = true -> eq_obj sub b c = true -> eq_obj sub a c = true.
Proof. exact eq_trans_some. Qed.
Print Assumptions C49_transitive.

(** A tabulated distribution without its cumulative values equals the one with them,
    not the other way round. *)
Definition xs : value := VNums [Fin 0; Fin 1].
Definition bare : object := {| cls := 0; attrs := [(str "_x", xs); (str "_p", xs)] |}.
Definition with_cdf : object := {| cls := 0; attrs := [(str "_x", xs); (str "_p", xs); (str "c", xs)] |}.
Theorem C49_symmetry_refuted : exists a b, proper a /\ proper b /\ cls a = cls b /\
  eq_obj Nat.eqb a b = true /\ eq_obj Nat.eqb b a = false.
Proof.
  exists bare, with_cdf. repeat split.
  - repeat constructor; cbn; intuition discriminate.
  - repeat constructor; cbn; intuition discriminate.
Qed.
Print Assumptions C49_symmetry_refuted.
(** Nor is it transitive where an attribute is None. *)
Definition obj (d : list (text * value)) : object := {| cls := 0; attrs := d |}.
Theorem C49_transitivity_refuted : exists a b c, proper a /\ proper b /\ proper c /\
  eq_obj Nat.eqb a b = true /\ eq_obj Nat.eqb b c = true /\ eq_obj Nat.eqb a c = false.
Proof.
  exists (obj [(str "c", VNone)]), (obj []), (obj [(str "c", xs)]). repeat split; repeat constructor; easy.
Qed.
Print Assumptions C49_transitivity_refuted.

(** *** Hypotheses met *)
Example C48_hypotheses_met : snd (history fresh_ids [Auto; Given 3; Reserve [2; 4]%Z; Auto; SetNext 3; Auto; Given (-1); Given 4]) =
  [Assigned 1 false; Assigned 3 false; Nothing; Assigned 5 false; Nothing; Assigned 6 false; Rejected; Assigned 4 true].
Proof. reflexivity. Qed.
Example C49_hypotheses_met : proper bare /\ proper with_cdf /\ eq_obj Nat.eqb bare with_cdf = true /\
  (forall k v, In (k, v) (attrs bare) -> no_nan v) /\ eq_obj Nat.eqb (obj [(str "a", VNums [NaN])]) (obj [(str "a", VNums [NaN])]) = false.
Proof.
  split; [|split; [|split; [reflexivity | split; [|reflexivity]]]].
  - repeat constructor; cbn; intuition discriminate.
  - repeat constructor; cbn; intuition discriminate.
  - intros k v I. cbn in I. destruct I as [E|[E|[]]]; injection E as <- <-; cbn; intuition discriminate.
Qed.
