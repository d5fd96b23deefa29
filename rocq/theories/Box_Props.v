(** C51: the BOXER decompression program writes the encoded matrix, or nothing.
    All names of conditions are from Box_Spec. *)
From Verif Require Import Num Box_Model Box_Spec Box_Proofs.
From Coq Require Import ZArith List Bool Arith Lia.
Import ListNotations.
Local Open Scope nat_scope.

(** A request whose record (with any continuation pages) is in the file after records
    that do not answer it is answered with the encoded matrix, rows and columns from
    the last to the first (a vector on one line, a transfer matrix in its own order), a
    symmetric one filled in on both sides; the next requests continue behind it. *)
Theorem C51_served : forall sym n m M q pre p ps rest c0 qs,
  sizes_ok sym n m -> encodes sym n m M 1 (p :: ps) -> Forall (passed_over q) pre -> accepted q p -> mat q <> 0%Z ->
  exists C out, lines_of q n m (full sym M) out /\ serve c0 (q :: qs) (pre ++ (p :: ps) ++ rest) = (out :: fst (serve C qs rest), snd (serve C qs rest)).
Proof. exact served. Qed.
Print Assumptions C51_served.

(** Whatever is loaded without error is encoded, element by element, by exactly the
    records consumed. *)
Theorem C51_accepted : forall sym n m rs c0 p C rest, sizes_ok sym n m ->
  (forall q, In q rs -> nrow q = n /\ ncolh q = (if sym then 0 else m)) ->
  load_set rs 1 {| c := c0; nx := 0; row := 1; col := 0 |} = Ok (p, C, rest) ->
  exists ps, rs = ps ++ rest /\ encodes sym n m C 1 ps.
Proof. exact accepted_encodes. Qed.
Print Assumptions C51_accepted.

(** It does not depend on what the array held before, and is symmetric if declared so. *)
Theorem C51_no_leftovers : forall sym n m rs c0 c1 p C rest, sizes_ok sym n m ->
  (forall q, In q rs -> nrow q = n /\ ncolh q = (if sym then 0 else m)) ->
  load_set rs 1 {| c := c0; nx := 0; row := 1; col := 0 |} = Ok (p, C, rest) ->
  (exists C', load_set rs 1 {| c := c1; nx := 0; row := 1; col := 0 |} = Ok (p, C', rest) /\
     forall i j, 1 <= i <= n -> 1 <= j <= m -> C' i j = C i j) /\
  (sym = true -> forall i j, 1 <= i <= n -> 1 <= j <= n -> C i j = C j i).
Proof. exact load_independent. Qed.
Print Assumptions C51_no_leftovers.

(** Too few or too many elements: an error, and nothing is written. *)
Theorem C51_wrong_length : forall sym n m q p ms c0, sizes_ok sym n m ->
  nrow p = n -> ncolh p = (if sym then 0 else m) -> more p = false -> spells (icon p) (xval p) ms ->
  length ms <> length (elements sym m 1 n) -> accepted q p -> mat q <> 0%Z -> exists h, serve c0 [q] [p] = ([], Some h).
Proof. exact wrong_length. Qed.
Print Assumptions C51_wrong_length.

(** A request without material ends the program. *)
Theorem C51_end : forall q qs rs c0, mat q = 0%Z -> serve c0 (q :: qs) rs = ([], None).
Proof. intros q qs rs c0 H. cbn [serve]. now rewrite H. Qed.
Print Assumptions C51_end.

(** The record found is the first later one that answers. *)
Theorem C51_first_match : forall q rs out, seek q rs = Ok out ->
  exists pre p rest, rs = pre ++ p :: rest /\ out = p :: rest /\ Forall (passed_over q) pre /\ accepted q p.
Proof. exact seek_inv. Qed.
Print Assumptions C51_first_match.

(** ** Concrete cases *)
Definition q4 : request := {| ty := 4; mat := 9228; mt := 18; mat1 := 9228; mt1 := 18 |}.
Definition q3 : request := {| ty := 4; mat := 9228; mt := 2; mat1 := 9228; mt1 := 2 |}.
Definition q0 : request := {| ty := 0; mat := 0; mt := 0; mat1 := 0; mt1 := 0 |}.
Definition page (t : Z) (xs : list Qc) (cs : list Z) (mo : bool) (n k : nat) : rec :=
  {| itypeh := 4; math := 9228; mth := t; mat1h := 9228; mt1h := t; xval := xs; icon := cs; more := mo; nrow := n; ncolh := k |}.
(** ((1, 2), (2, 2)) as upper triangle; (1 2 3; 1 7 3) on two pages. *)
Definition sym_page : rec := page 18 [qz 1; qz 2] [-1; -1; 1]%Z false 2 0.
Definition page1 : rec := page 2 [qz 1; qz 2; qz 3] [-1; -1; -1]%Z true 2 3.
Definition page2 : rec := page 2 [qz 1; qz 7; qz 3] [-1; -1; -1]%Z false 2 3.
Definition M2 (i j : nat) : Qc := if i + j =? 2 then qz 1 else qz 2.
Definition M23 (i j : nat) : Qc := if (i =? 2) && (j =? 2) then qz 7 else qz (Z.of_nat j).

Example C51_served_hypotheses_met : sizes_ok true 2 2 /\ encodes true 2 2 M2 1 [sym_page] /\
  sizes_ok false 2 3 /\ encodes false 2 3 M23 1 [page1; page2] /\ Forall (passed_over q4) [page1; page2] /\ accepted q4 sym_page /\ mat q4 <> 0%Z.
Proof.
  assert (A : encodes true 2 2 M2 1 [sym_page]).
  { apply (encodes_last true 2 2 M2 1 2 sym_page [Value (qz 1); Value (qz 2); Above]); try reflexivity.
    - apply (spells_value 1 [-1; 1]%Z (qz 1) [qz 2] [Value (qz 2); Above]); [lia|].
      apply (spells_value 1 [1]%Z (qz 2) [] [Above]); [lia|]. apply (spells_above 1 []%Z [] []); [lia|]. constructor.
    - repeat constructor. }
  assert (B : encodes false 2 3 M23 1 [page1; page2]).
  { assert (S : forall a b d, spells [-1; -1; -1]%Z [a; b; d] [Value a; Value b; Value d]).
    { intros a b d. apply (spells_value 1 [-1; -1]%Z a [b; d] [Value b; Value d]); [lia|].
      apply (spells_value 1 [-1]%Z b [d] [Value d]); [lia|]. apply (spells_value 1 []%Z d [] []); [lia|]. constructor. }
    apply (encodes_more false 2 3 M23 1 1 page1 [Value (qz 1); Value (qz 2); Value (qz 3)]); try reflexivity; [lia|apply S|repeat constructor|].
    apply (encodes_last false 2 3 M23 2 1 page2 [Value (qz 1); Value (qz 7); Value (qz 3)]); try reflexivity; [apply S|repeat constructor]. }
  split; [unfold sizes_ok; lia|]. split; [exact A|]. split; [unfold sizes_ok; split; [lia|split; [lia|discriminate]]|]. split; [exact B|].
  assert (P : forall p, In p [page1; page2] -> passed_over q4 p).
  { intros p [<-|[<-|[]]]; (split; [cbn; lia|split; [cbn; lia|split; [cbn; lia|intros (_ & H & _); destruct H as [_ H]; [cbn; lia|discriminate]]]]). }
  split; [apply Forall_forall; exact P|]. repeat split; cbn; try lia; reflexivity || discriminate.
Qed.
(** The two matrices are read and written. *)
Example C51_two_requests : serve (fun _ _ => qz 99) [q3; q4; q0] [page1; page2; sym_page] =
  ([[[qz 3; qz 7; qz 1]; [qz 3; qz 2; qz 1]]; [[qz 2; qz 2]; [qz 2; qz 1]]], None).
Proof. reflexivity. Qed.
(** A transfer matrix keeps its order. *)
Example C51_transfer : serve (fun _ _ => qz 99) [{| ty := 4; mat := 9228; mt := 18; mat1 := 9228; mt1 := 0 |}; q0]
    [{| itypeh := 4; math := 9228; mth := 18; mat1h := 9228; mt1h := 0; xval := [qz 1; qz 2]; icon := [-1; -1; 2]%Z; more := false; nrow := 2; ncolh := 2 |}] =
  ([[[qz 1; qz 2]; [qz 1; qz 2]]], None).
Proof. reflexivity. Qed.
Example C51_wrong_length_hypotheses_met : spells [-1; 1]%Z [qz 1] [Value (qz 1); Above] /\ length [Value (qz 1); Above] <> length (elements true 2 1 2) /\
  serve (fun _ _ => qz 99) [q4] [page 18 [qz 1] [-1; 1]%Z false 2 0] = ([], Some (Stop 12)).
Proof.
  split; [|split; [discriminate|reflexivity]].
  apply (spells_value 1 [1]%Z (qz 1) [] [Above]); [lia|]. apply (spells_above 1 []%Z [] []); [lia|]. constructor.
Qed.

(** Not every request for a record in the file is answered: the file is read once, so
    the order of the requests must be the order of the file. *)
Theorem C51_any_order_refuted : exists q q' rs c0, (exists p, In p rs /\ matches q p) /\ (exists p, In p rs /\ matches q' p) /\
  snd (serve c0 [q'; q; q0] rs) = None /\ snd (serve c0 [q; q'; q0] rs) = Some NotFound.
Proof.
  exists q4, q3, [page1; page2; sym_page], (fun _ _ => 0%Qc).
  split; [exists sym_page; split; [cbn; tauto|now repeat split]|]. split; [exists page1; split; [cbn; tauto|now repeat split]|]. split; reflexivity.
Qed.
Print Assumptions C51_any_order_refuted.

(** Nor is a continuation page ended by a lack of elements always refused: control
    numbers are consumed page by page, so a page may be empty. *)
Example C51_empty_page : snd (serve (fun _ _ => 0%Qc) [q4; q0] [page 18 [qz 1; qz 2; qz 3] [-1; -1; -1]%Z true 2 0; page 18 [] [] false 2 0]) = None.
Proof. reflexivity. Qed.
