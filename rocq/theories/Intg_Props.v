(** C37: INTG correlation records. *)
From Verif Require Import Num Text Dec PyNum Endf_Model Endf_Spec Endf_Proofs Endf2_Proofs Intg_Model Intg_Spec Intg_Proofs Endf_Props.
From Coq Require Import ZArith NArith.
Local Open Scope list_scope.
Local Open Scope nat_scope.

(** A well-formed record: head, lines, digits, number of integers per line. *)
Definition record (npar : nat) (nd : Z) (nrow : nat) (xs : list iline) (f : list text) : Prop :=
  exists l a b n ls, f = l :: ls /\ control_line l a b nd (Z.of_nat npar) (Z.of_nat (length xs)) n /\
    In (nd, nrow) [(2%Z, 18); (3%Z, 12); (4%Z, 11); (5%Z, 9); (6%Z, 8)] /\
    Forall2 (iline_text (S (Z.to_nat nd))) xs ls /\ Forall (in_range npar nrow) xs.
Lemma record_nrow nd nrow : In (nd, nrow) [(2%Z, 18); (3%Z, 12); (4%Z, 11); (5%Z, 9); (6%Z, 8)] -> nrow_of nd = Some nrow.
Proof. intros [E|[E|[E|[E|[E|[]]]]]]; injection E as <- <-; reflexivity. Qed.

(** The matrix read is the identity plus, for every pair of a row and a lower
    column, the last non-zero integer left of the diagonal on the last line that
    starts at exactly that pair; the record's lines are consumed. *)
Theorem C37_stored : forall npar nd nrow xs f rest, record npar nd nrow xs f ->
  exists m, get_intg_record (f ++ rest) = Some (npar, m, rest) /\
    forall i j, m i j = if Nat.eqb i j then 1%Qc else observed nd xs (Nat.max i j) (Nat.min i j).
Proof.
  intros npar nd nrow xs f rest (l & a & b & n & ls & -> & Hc & Hn & Hl & Hr).
  exact (get_intg_ok l a b nd npar n xs ls nrow rest Hc (record_nrow _ _ Hn) Hl Hr).
Qed.
Print Assumptions C37_stored.

(** Whatever is read, the matrix is symmetric. *)
Theorem C37_symmetric : forall f n m f', get_intg_record f = Some (n, m, f') -> forall i j, m i j = m j i.
Proof. exact get_intg_symmetric. Qed.
Print Assumptions C37_symmetric.

(** With one integer per line and no pair given twice, every entry is placed. *)
Theorem C37_one_per_line : forall npar nd nrow xs f rest, record npar nd nrow xs f ->
  NoDup (map (fun x => (row x, col x)) xs) -> (forall x, In x xs -> exists e k, ints x = e :: repeat 0%Z k) ->
  exists m, get_intg_record (f ++ rest) = Some (npar, m, rest) /\
    forall x, In x xs -> (col x < row x)%Z ->
      m (Z.to_nat (row x - 1)) (Z.to_nat (col x - 1)) = fraction nd (hd 0%Z (ints x)).
Proof.
  intros npar nd nrow xs f rest H Hn H1.
  destruct (C37_stored _ _ _ _ _ rest H) as (m & Em & Hm). exists m. split; [exact Em|].
  intros x Hx Hlt. destruct (H1 x Hx) as (e & k & He).
  destruct H as (l & a & b & n & ls & -> & _ & _ & _ & Hr). pose proof (proj1 (Forall_forall _ _) Hr x Hx) as (Hrow & Hcol & _).
  rewrite Hm. destruct (Nat.eqb_spec (Z.to_nat (row x - 1)) (Z.to_nat (col x - 1))) as [E|_]; [lia|].
  rewrite Nat.max_l, Nat.min_r by lia. rewrite He. cbn [hd]. exact (observed_single nd xs x e k Hn Hx ltac:(lia) He).
Qed.
Print Assumptions C37_one_per_line.

(** The second and later integers of a line are not placed: the entry they
    belong to stays 0 unless another line starts there. *)
Theorem C37_placed_refuted : forall npar nd nrow xs f rest x k e, record npar nd nrow xs f -> In x xs ->
  0 < k -> (col x + Z.of_nat k < row x)%Z -> nth_error (ints x) k = Some e -> e <> 0%Z ->
  let i := Z.to_nat (row x - 1) in let j := Z.to_nat (col x + Z.of_nat k - 1) in
  (forall y, In y xs -> row y <> row x \/ col y <> col x + Z.of_nat k)%Z ->
  exists m v, get_intg_record (f ++ rest) = Some (npar, m, rest) /\ meant nd xs i j v /\ v <> 0%Qc /\ m i j = 0%Qc.
Proof.
  intros npar nd nrow xs f rest x k e H Hx Hk Hlt Hnth He i j Hno.
  destruct (C37_stored _ _ _ _ _ rest H) as (m & Em & Hm). exists m, (fraction nd e).
  destruct H as (l & a & b & n & ls & -> & _ & _ & _ & Hr). pose proof (proj1 (Forall_forall _ _) Hr x Hx) as (Hrow & Hcol & _).
  split; [exact Em|]. split; [|split; [now apply fraction_nonzero|]].
  - exists x, k, e. unfold i, j. repeat split; try assumption; lia.
  - rewrite Hm. destruct (Nat.eqb_spec i j) as [E|_]; [unfold i, j in E; lia|].
    replace (Nat.max i j) with i by (unfold i, j; lia). replace (Nat.min i j) with j by (unfold i, j; lia).
    apply observed_none. intros y Hy. unfold at_cell. destruct (Hno y Hy) as [D|D].
    + apply andb_false_iff. left. apply Z.eqb_neq. unfold i. lia.
    + apply andb_false_iff. right. apply Z.eqb_neq. unfold j. lia.
Qed.
Print Assumptions C37_placed_refuted.

(** A 3 by 3 matrix with two digits: the line "3 1 50 -20". *)
Definition ex_il (r c : Z) (es : list Z) : text :=
  pad 5 (decZ r) ++ pad 5 (decZ c) ++ sp :: concat (map (fun e => if (e =? 0)%Z then repeat sp 3 else pad 3 (decZ e)) es) ++ str " 9228".
Lemma ex_small w z : length (decZ z) <= w -> small_field w (pad w (decZ z)) z.
Proof.
  intros H. split; [now apply pad_length|]. right. exists (w - length (decZ z)), 0. unfold pad. cbn [repeat]. now rewrite app_nil_r.
Qed.
Lemma ex_il_ok r c es : length (decZ r) <= 5 -> length (decZ c) <= 5 -> Forall (fun e => length (decZ e) <= 3) es ->
  iline_text 3 {| row := r; col := c; ints := es |} (ex_il r c es).
Proof.
  intros Hr Hc He. unfold iline_text. do 4 eexists. exists (str " 9228"). split; [reflexivity|]. cbn [row col ints].
  split; [now apply ex_small|]. split; [now apply ex_small|].
  induction He as [|e es H1 H2 IH]; [constructor|]. cbn [map]. constructor; [|exact IH].
  destruct (Z.eqb_spec e 0) as [->|_]; [split; [reflexivity|now left]|now apply ex_small].
Qed.
Definition ex_intg : list iline :=
  [{| row := 2; col := 1; ints := 10%Z :: repeat 0%Z 17 |}; {| row := 3; col := 1; ints := 50%Z :: (-20)%Z :: repeat 0%Z 16 |}].
Example C37_hypotheses_met : exists f, record 3 2 18 ex_intg f /\ f <> [] /\
  NoDup (map (fun x => (row x, col x)) ex_intg).
Proof.
  exists [ctl (1000000, 0)%N (1000000, 0)%N 2 3 2 0 []; ex_il 2 1 (10%Z :: repeat 0%Z 17); ex_il 3 1 (50%Z :: (-20)%Z :: repeat 0%Z 16)].
  split; [|split; [discriminate|]].
  - do 5 eexists. split; [reflexivity|]. split; [apply ctl_ok; lens|]. split; [now left|].
    split; repeat constructor; cbn [row col ints]; try lia; try reflexivity; apply ex_il_ok; try lens;
      repeat constructor; lens.
  - cbn. constructor; [intros [E|[]]; discriminate E|]. constructor; [intros []|constructor].
Qed.
(** Its correlation -0.205 of parameters 3 and 2 is lost and 0.505 of parameters
    3 and 1 replaced by it. *)
Example C37_observed_3x3 : observed 2 ex_intg 2 1 = 0%Qc /\ observed 2 ex_intg 2 0 = qc (-41) 200 /\
  meant 2 ex_intg 2 1 (qc (-41) 200) /\ meant 2 ex_intg 2 0 (qc 101 200).
Proof.
  split; [|split; [|split]].
  - apply Qc_is_canon. reflexivity.
  - apply Qc_is_canon. reflexivity.
  - exists (nth 1 ex_intg {| row := 0; col := 0; ints := [] |}), 1, (-20)%Z. cbn. repeat split; auto; apply Qc_is_canon; reflexivity.
  - exists (nth 1 ex_intg {| row := 0; col := 0; ints := [] |}), 0, 50%Z. cbn. repeat split; auto; apply Qc_is_canon; reflexivity.
Qed.
