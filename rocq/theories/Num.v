(** Exact rational numbers used by the models (Coq stdlib [Qc]: canonical
    rationals with Leibniz equality), a boolean order on them and a small
    decision tactic for linear goals.  This file models no source code; it is
    arithmetic support only. *)
From Coq Require Export ZArith QArith Qcanon List Bool Lia Lqa Arith.
Export ListNotations.

Definition qleb (a b : Qc) : bool := Qle_bool (this a) (this b).
Definition qltb (a b : Qc) : bool := negb (Qle_bool (this b) (this a)).
Definition qeqb (a b : Qc) : bool := Qeq_bool (this a) (this b).
Definition qc (n : Z) (d : positive) : Qc := Q2Qc (n # d).
Definition qz (n : Z) : Qc := Q2Qc (n # 1).
Definition qabs (a : Qc) : Qc := if qleb 0%Qc a then a else (- a)%Qc.
Definition qmax (a b : Qc) : Qc := if qleb a b then b else a.

Definition qsum (l : list Qc) : Qc := fold_right Qcplus 0%Qc l.

Lemma qleb_le a b : qleb a b = true <-> (a <= b)%Qc.
Proof. unfold qleb, Qcle. apply Qle_bool_iff. Qed.
Lemma qleb_nle a b : qleb a b = false <-> (b < a)%Qc.
Proof.
  unfold Qclt. rewrite <- not_true_iff_false, qleb_le. unfold Qcle.
  split; intro H; [apply Qnot_le_lt; exact H | apply Qlt_not_le; exact H].
Qed.
Lemma qltb_lt a b : qltb a b = true <-> (a < b)%Qc.
Proof. unfold qltb. rewrite negb_true_iff. fold (qleb b a). apply qleb_nle. Qed.
Lemma qltb_nlt a b : qltb a b = false <-> (b <= a)%Qc.
Proof. unfold qltb. rewrite negb_false_iff. fold (qleb b a). apply qleb_le. Qed.
Lemma qeqb_eq a b : qeqb a b = true <-> a = b.
Proof.
  unfold qeqb. rewrite Qeq_bool_iff. split; [apply Qc_is_canon | intros ->; reflexivity].
Qed.
Lemma qeqb_neq a b : qeqb a b = false <-> a <> b.
Proof. rewrite <- not_true_iff_false, qeqb_eq. tauto. Qed.

Lemma qleb_spec a b : reflect (a <= b)%Qc (qleb a b).
Proof. apply iff_reflect. symmetry. apply qleb_le. Qed.
Lemma qltb_spec a b : reflect (a < b)%Qc (qltb a b).
Proof. apply iff_reflect. symmetry. apply qltb_lt. Qed.
Lemma qeqb_spec a b : reflect (a = b) (qeqb a b).
Proof. apply iff_reflect. symmetry. apply qeqb_eq. Qed.

Lemma this_add a b : (this (a + b)%Qc == this a + this b)%Q.
Proof. apply Qred_correct. Qed.
Lemma this_mul a b : (this (a * b)%Qc == this a * this b)%Q.
Proof. apply Qred_correct. Qed.
Lemma this_opp a : (this (- a)%Qc == - this a)%Q.
Proof. apply Qred_correct. Qed.
Lemma this_sub a b : (this (a - b)%Qc == this a - this b)%Q.
Proof. unfold Qcminus. rewrite this_add, this_opp. reflexivity. Qed.
Lemma this_inv a : (this (/ a)%Qc == / this a)%Q.
Proof. apply Qred_correct. Qed.
Lemma this_div a b : (this (a / b)%Qc == this a / this b)%Q.
Proof. unfold Qcdiv. rewrite this_mul, this_inv. reflexivity. Qed.
Lemma this_Q2Qc q : (this (Q2Qc q) == q)%Q.
Proof. apply Qred_correct. Qed.
Lemma this_0 : (this 0%Qc == 0)%Q. Proof. reflexivity. Qed.
Lemma this_1 : (this 1%Qc == 1)%Q. Proof. reflexivity. Qed.

Global Hint Rewrite this_add this_mul this_opp this_sub this_Q2Qc this_0 this_1 : qcdb.

Lemma Qc_eq_this (a b : Qc) : a = b <-> (this a == this b)%Q.
Proof. split; [intros ->; reflexivity | apply Qc_is_canon]. Qed.

(** Decide linear (in)equalities over [Qc]. *)
Ltac qc_prep :=
  repeat match goal with
  | H : qleb _ _ = true |- _ => apply qleb_le in H
  | H : qleb _ _ = false |- _ => apply qleb_nle in H
  | H : qltb _ _ = true |- _ => apply qltb_lt in H
  | H : qltb _ _ = false |- _ => apply qltb_nlt in H
  | H : qeqb _ _ = true |- _ => apply qeqb_eq in H
  | H : ~ (Qcle _ _) |- _ => apply Qcnot_le_lt in H
  | H : ~ (Qclt _ _) |- _ => apply Qcnot_lt_le in H
  end;
  repeat match goal with
  | H : @eq Qc _ _ |- _ => apply Qc_eq_this in H
  | H : Qcle _ _ |- _ => unfold Qcle in H
  | H : Qclt _ _ |- _ => unfold Qclt in H
  end;
  match goal with
  | |- @eq Qc _ _ => apply Qc_is_canon
  | |- Qcle _ _ => unfold Qcle
  | |- Qclt _ _ => unfold Qclt
  | |- _ => idtac
  end;
  unfold qz, qc in *;
  autorewrite with qcdb in *.
Ltac qclra := qc_prep; lra.
Ltac qcnra := qc_prep; nra.

Lemma qabs_spec a : (0 <= a)%Qc /\ qabs a = a \/ (a < 0)%Qc /\ qabs a = (- a)%Qc.
Proof. unfold qabs. destruct (qleb_spec 0 a); [left|right]; split; auto. qclra. Qed.

Lemma qmax_l a b : (a <= qmax a b)%Qc.
Proof. unfold qmax. destruct (qleb a b) eqn:E; qclra. Qed.
Lemma qmax_r a b : (b <= qmax a b)%Qc.
Proof. unfold qmax. destruct (qleb a b) eqn:E; qclra. Qed.

Lemma qsum_cons a l : qsum (a :: l) = (a + qsum l)%Qc.
Proof. reflexivity. Qed.
Lemma qsum_nil : qsum [] = 0%Qc.
Proof. reflexivity. Qed.
Lemma qsum_app l1 l2 : qsum (l1 ++ l2) = (qsum l1 + qsum l2)%Qc.
Proof.
  induction l1 as [|a l IH]; cbn [app]; rewrite ?qsum_cons, ?qsum_nil, ?IH; ring.
Qed.
