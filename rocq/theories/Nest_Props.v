(** C50: checking nested iterables. *)
From Coq Require Import List Bool Arith Lia.
From Verif Require Import Nest_Model Nest_Spec Nest_Proofs.
Import ListNotations.
Local Open Scope nat_scope.

(** A result is always reached, whatever the nesting. *)
Theorem C50_terminates : forall min max l, exists n b, forall m, n <= m -> check_iterable_type m min max l = Some b.
Proof. intros min max l. destruct (decides min max l) as [n [b [H _]]]. now exists n, b. Qed.
Print Assumptions C50_terminates.
(** It is acceptance exactly for acceptable values. *)
Theorem C50_exact : forall min max l n b, check_iterable_type n min max l = Some b -> (b = true <-> acceptable min max l).
Proof. exact result_right. Qed.
Print Assumptions C50_exact.
(** "Every leaf is at a depth up to the maximum": not for a maximum of zero, and the
    minimum depth says nothing about empty sequences. *)
Theorem C50_maximum_refuted : exists l d x, check_iterable_type 9 0 0 l = Some true /\ leaf l d x /\ 0 < d.
Proof. exists [Wanted], 1, Wanted. split; [reflexivity|]. split; [constructor; [now left | discriminate] | lia]. Qed.
Print Assumptions C50_maximum_refuted.
Theorem C50_minimum_refuted : exists l, check_iterable_type 9 5 5 l = Some true /\ forall d, opened l d -> d < 5.
Proof.
  exists [Seq []]. split; [reflexivity|]. intros d H. apply opened1_inv in H. destruct H as [A|[s [e [A [-> K]]]]]; [lia|].
  injection A as <-. apply opened_inv in K. destruct K as [->|[s [e' [[] _]]]]. lia.
Qed.
Print Assumptions C50_minimum_refuted.

(** *** Hypotheses met *)
Example C50_hypotheses_met : check_iterable_type 99 2 3 [Seq [Wanted; Seq [Wanted]]; Seq []; Seq [Wanted]] = Some true /\
  check_iterable_type 99 2 3 [Seq [Wanted; Seq [Wanted]]; Wanted] = Some false /\
  check_iterable_type 99 2 3 [Seq [Wanted; Seq [Seq []]]] = Some false /\
  check_iterable_type 99 2 3 [Seq [Wanted; Seq [Wanted; Other]]] = Some false.
Proof. repeat split. Qed.
