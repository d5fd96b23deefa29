(** Compact correlation (INTG) records.
    Source: /repo/ASAPy/data/endf.py:95-110 and 292-333. *)
From Verif Require Import Num Text PyNum Endf_Model.
Local Open Scope list_scope.

Local Notation "'do' x <- e ; k" :=
  (match e with Some x => k | None => None end) (at level 60, x pattern, e at level 59, k at level 60).

(** data/endf.py:95-110. *)
Definition int_endf (t : text) : option Z :=
  match trim t with [] => Some 0%Z | u => py_int u end.

(** data/endf.py:311; [None] is [KeyError]. *)
Definition nrow_of (ndigit : Z) : option nat :=
  match ndigit with
  | 2%Z => Some 18 | 3%Z => Some 12 | 4%Z => Some 11 | 5%Z => Some 9 | 6%Z => Some 8
  | _ => None
  end%nat.

(** The correlation matrix, [npar] by [npar]. *)
Definition qmat := nat -> nat -> Qc.
(** Index of a numpy axis: negative numbers count from the end, others raise. *)
Definition axis (npar : nat) (i : Z) : option nat :=
  if (0 <=? i)%Z then if (i <? Z.of_nat npar)%Z then Some (Z.to_nat i) else None
  else if (- Z.of_nat npar <=? i)%Z then Some (Z.to_nat (i + Z.of_nat npar)) else None.
Definition assign (npar : nat) (m : qmat) (i j : Z) (v : Qc) : option qmat :=
  do a <- axis npar i; do b <- axis npar j;
  Some (fun x y => if Nat.eqb x a && Nat.eqb y b then v else m x y).

(** data/endf.py:325, 327: [(element + 0.5) / factor], [(element - 0.5) / factor]. *)
Definition scaled (ndigit : Z) (e : Z) : Qc :=
  if (0 <? e)%Z then ((qz e + qc 1 2) / qz (10 ^ ndigit))%Qc else ((qz e - qc 1 2) / qz (10 ^ ndigit))%Qc.

(** data/endf.py:320-327: columns [j], [j+1], ... of one line, [left] of them. *)
Fixpoint intg_cols (npar : nat) (ndigit ii jj : Z) (line : text) (left j : nat) (m : qmat) : option qmat :=
  match left with
  | O => Some m
  | S k =>
      if (ii <=? jj + Z.of_nat j)%Z then Some m
      else
        let w := S (Z.to_nat ndigit) in
        do e <- int_endf (slice (11 + w * j) (11 + w * (j + 1)) line);
        do m' <- (if (e =? 0)%Z then Some m else assign npar m ii jj (scaled ndigit e));
        intg_cols npar ndigit ii jj line k (S j) m'
  end.
(** data/endf.py:315-327. *)
Fixpoint intg_lines (npar nrow : nat) (ndigit : Z) (n : nat) (f : file) (m : qmat) : option (qmat * file) :=
  match n with
  | O => Some (m, f)
  | S k =>
      let (line, f') := readline f in
      do i <- int_endf (slice 0 5 line);
      do j <- int_endf (slice 5 10 line);
      do m' <- intg_cols npar ndigit (i - 1) (j - 1) line nrow 0 m;
      intg_lines npar nrow ndigit k f' m'
  end.

Definition identity : qmat := fun i j => if Nat.eqb i j then 1%Qc else 0%Qc.
(** data/endf.py:330: [corr + corr.T - np.diag(corr.diagonal())]. *)
Definition symmetrize (m : qmat) : qmat := fun i j =>
  (m i j + m j i - (if Nat.eqb i j then m i i else 0))%Qc.

(** data/endf.py:292-331: the number of parameters and the matrix. *)
Definition get_intg_record (f : file) : option (nat * qmat * file) :=
  do (items, f1) <- get_cont_record false f;
  let ndigit := l1 items in
  do nrow <- nrow_of ndigit;
  if (l2 items <? 0)%Z then None (* np.identity of a negative size *)
  else
    let npar := Z.to_nat (l2 items) in
    do (m, f2) <- intg_lines npar nrow ndigit (Z.to_nat (n1 items)) f1 identity;
    Some (npar, symmetrize m, f2).
