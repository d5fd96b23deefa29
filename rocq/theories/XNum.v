(** Extended numbers: exact rationals plus the IEEE special values.  Signed
    zeros are not distinguished (zero counts as +0). *)
From Verif Require Export Num.
Local Open Scope Qc_scope.

Inductive xnum := Fin (q : Qc) | PInf | NInf | NaN.

Definition xsign (pos : bool) : xnum := if pos then PInf else NInf.

(** IEEE division. *)
Definition xdiv (a b : xnum) : xnum :=
  match a, b with
  | NaN, _ | _, NaN => NaN
  | Fin x, Fin y =>
      if qeqb y 0 then (if qeqb x 0 then NaN else xsign (qltb 0 x)) else Fin (x / y)
  | Fin _, _ => Fin 0
  | PInf, Fin y => xsign (qleb 0 y)
  | NInf, Fin y => xsign (qltb y 0)
  | _, _ => NaN
  end.

Definition xneg (a : xnum) : bool :=
  match a with Fin x => qltb x 0 | NInf => true | _ => false end.
Definition xisnan (a : xnum) : bool := match a with NaN => true | _ => false end.

Lemma xdiv_1 a : xdiv a (Fin 1) = a.
Proof.
  destruct a; cbn; try reflexivity. f_equal. unfold Qcdiv. 
  replace (/ 1) with 1 by (apply Qc_is_canon; reflexivity). ring.
Qed.
Lemma xneg_fin x : xneg (Fin x) = true <-> x < 0.
Proof. cbn. apply qltb_lt. Qed.
