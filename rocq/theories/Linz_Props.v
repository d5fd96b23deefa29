(** C46: linearising a function. *)
From Coq Require Import ZArith QArith Qcanon List Bool Arith Sorted Lia.
From Verif Require Import Num Thin_Spec Linz_Model Linz_Spec Linz_Proofs.
Import ListNotations.
Local Open Scope nat_scope.

(** What comes back is increasing, holds the values of the function, keeps the grid and
    its ends, and every two neighbours pass the midpoint criterion. *)
Theorem C46_sound : forall f tol xs fuel out, (0 <= tol)%Qc -> StronglySorted Qclt xs ->
  linearize fuel f tol xs = Some out -> linearized f tol xs out.
Proof. exact linearize_sound. Qed.
Print Assumptions C46_sound.
(** It comes back just when bisecting the intervals ends, and then with exactly the
    points of the bisection (none where the criterion holds already). *)
Theorem C46_exact : forall f tol xs out, (0 <= tol)%Qc -> StronglySorted Qclt xs ->
  (exists fuel, linearize fuel f tol xs = Some out) <-> exists o, filled f tol xs o /\ out = map (fun x => (x, f x)) o.
Proof. exact linearize_iff. Qed.
Print Assumptions C46_exact.
(** It ends for functions of bounded slope that stay away from zero. *)
Theorem C46_ends : forall f tol K c xs, (0 < tol)%Qc -> (0 < c)%Qc -> xs <> [] -> StronglySorted Qclt xs ->
  (forall u v, hd 0 xs <= u -> u <= v -> v <= last xs 0 -> qabs (f u - f v) <= K * (v - u))%Qc ->
  (forall u, hd 0 xs <= u -> u <= last xs 0 -> c <= qabs (f u))%Qc ->
  exists fuel out, linearize fuel f tol xs = Some out.
Proof. exact linearize_ends. Qed.
Print Assumptions C46_ends.
(** A straight line needs no more points. *)
Theorem C46_line : forall f tol xs a b, (0 <= tol)%Qc -> StronglySorted Qclt xs -> xs <> [] -> (forall x, f x = a + b * x)%Qc ->
  exists fuel, linearize fuel f tol xs = Some (map (fun x => (x, f x)) xs).
Proof.
  intros f tol xs a b T SS N F. apply linearize_good; auto. clear -F T. induction xs as [|x xs IH]; constructor; [exact IH|].
  destruct xs; constructor. now apply (affine_good _ _ a b).
Qed.
Print Assumptions C46_line.

(** *** Hypotheses met: 1/x between 1 and 4, to a tenth *)
Definition demo_f (x : Qc) : Qc := (/ x)%Qc.
Definition demo_grid := map qz [1; 4]%Z.
Example C46_hypotheses_met : StronglySorted Qclt demo_grid /\
  option_map (map fst) (linearize 20 demo_f (qc 1 10) demo_grid) = Some [qz 1; qc 7 4; qc 5 2; qz 4].
Proof. split; [repeat constructor | reflexivity]. Qed.
(** The square plus one on [0, 2]: slope at most 4, values at least 1. *)
Example C46_ends_hypotheses_met : let f x := (x * x + 1)%Qc in
  (forall u v, 0 <= u -> u <= v -> v <= qz 2 -> qabs (f u - f v) <= qz 4 * (v - u))%Qc /\ (forall u, 0 <= u -> u <= qz 2 -> 1 <= qabs (f u))%Qc.
Proof.
  split.
  - intros u v A B C. destruct (qabs_spec (u * u + 1 - (v * v + 1))) as [[_ ->]|[_ ->]].
    + assert (u * u <= v * v)%Qc by qcnra. assert (0 <= qz 4 * (v - u))%Qc. { unfold qz. rewrite Qcmult_comm. assert (0 <= v - u)%Qc by qclra. apply (Qcmult_le_compat_r 0 (v - u) (Q2Qc (4 # 1))) in H0; [|discriminate]. now rewrite Qcmult_0_l in H0. } qclra.
    + replace (- (u * u + 1 - (v * v + 1)))%Qc with ((v + u) * (v - u))%Qc by ring.
      apply Qcmult_le_compat_r; [|qclra]. assert (E : qz 4 = (qz 2 + qz 2)%Qc) by (apply Qc_is_canon; reflexivity). rewrite E. qclra.
  - intros u A B. destruct (qabs_spec (u * u + 1)) as [[_ ->]|[H _]]; [qcnra|]. exfalso. assert (0 <= u * u)%Qc by qcnra. qclra.
Qed.
