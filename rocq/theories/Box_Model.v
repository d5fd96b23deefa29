(** The BOXER decompression program.
    Source: /repo/boxer2mat/boxer2mat.f:1-149.
    Simplifications: a record is already split into its header numbers, its values
    and its control numbers (the FORTRAN formats of lines 57, 124, 157-192 are not
    modelled, nor is the illegal-format stop of SETFOR); numbers are exact; row and
    column numbers start at 1 as in the source; the array C keeps what it held
    before ([c0]) where nothing is stored; reading past the end while loading a
    continuation page or past the last request is a run-time error; the table of
    contents (ITYPE=-1) is left out. *)
From Verif Require Import Num.
From Coq Require Import ZArith List Bool Arith.
Import ListNotations.
Local Open Scope nat_scope.

(** boxer2mat.f:51-52, 62-64: one record of unit NIN. *)
Record rec := { itypeh : nat; math : Z; mth : Z; mat1h : Z; mt1h : Z;
                xval : list Qc; icon : list Z; more : bool; nrow : nat; ncolh : nat }.
Definition matrix := nat -> nat -> Qc.
(** boxer2mat.f:83-84. *)
Definition symm (p : rec) : bool := ncolh p =? 0.
Definition ncol (p : rec) : nat := if symm p then nrow p else ncolh p.
(** Loading state: C, NX, I, J. *)
Record load := { c : matrix; nx : nat; row : nat; col : nat }.
(** How a program ends early: STOP n, the two error messages, a run-time error. *)
Inductive halt := Stop (n : nat) | NotFound | TooManyGroups | ReadError.
Inductive result (A : Type) := Ok (a : A) | Halt (h : halt).
Arguments Ok {A}. Arguments Halt {A}.

Definition put (m : matrix) (i j : nat) (v : Qc) : matrix :=
  fun a b => if (a =? i) && (b =? j) then v else m a b.
(** boxer2mat.f:99-114: one element; [v] is [None] for a copy of the row above. *)
Definition load_one (p : rec) (istart : nat) (v : option Qc) (s : load) : result load :=
  let fresh := negb (S (col s) <=? ncol p) in
  let i := if fresh then S (row s) else row s in
  let j := if fresh then (if symm p then i else 1) else S (col s) in
  if fresh && (nrow p <? i) then Halt (Stop 10)
  else
    let x := match v with Some x => x | None => if istart <? i then c s (i - 1) j else 0%Qc end in
    let c1 := put (c s) i j x in
    if negb (symm p) || (i =? j) then Ok {| c := c1; nx := S (nx s); row := i; col := j |}
    else Ok {| c := put c1 j i x; nx := S (S (nx s)); row := i; col := j |}.
(** boxer2mat.f:98-115: [n] elements. *)
Fixpoint load_run (n : nat) (p : rec) (istart : nat) (v : option Qc) (s : load) : result load :=
  match n with
  | O => Ok s
  | S k => match load_one p istart v s with Ok s' => load_run k p istart v s' | Halt h => Halt h end
  end.
(** boxer2mat.f:88-116: the control numbers [cs] with the unused values [xs]. *)
Fixpoint load_page (cs : list Z) (xs : list Qc) (p : rec) (istart : nat) (s : load) : result load :=
  match cs with
  | [] => Ok s
  | k :: r =>
      if (k <? 0)%Z then
        match xs with
        | [] => Halt (Stop 7)
        | x :: xs' => match load_run (Z.to_nat (- k)) p istart (Some x) s with
                      | Ok s' => load_page r xs' p istart s'
                      | Halt h => Halt h
                      end
        end
      else if (k =? 0)%Z then Halt (Stop 6)
      else match load_run (Z.to_nat k) p istart None s with
           | Ok s' => load_page r xs p istart s'
           | Halt h => Halt h
           end
  end.
(** boxer2mat.f:80-128: a record and its continuation pages; returns the last
    page's sizes, C, and the records left. *)
Fixpoint load_set (rs : list rec) (istart : nat) (s : load) : result (rec * matrix * list rec) :=
  match rs with
  | [] => Halt ReadError
  | p :: rs' =>
      if (800 <? nrow p) || (800 <? ncol p) then Halt TooManyGroups
      else match load_page (icon p) (xval p) p istart s with
      | Halt h => Halt h
      | Ok s' =>
          if more p then
            if negb (col s' =? ncol p) then Halt (Stop 11) else load_set rs' (S (row s')) s'
          else if negb (nx s' =? nrow p * ncol p) then Halt (Stop 12) else Ok (p, c s', rs')
      end
  end.
(** boxer2mat.f:46-48: a request; boxer2mat.f:70-74: whether a record answers it. *)
Record request := { ty : nat; mat : Z; mt : Z; mat1 : Z; mt1 : Z }.
Definition answers (q : request) (p : rec) : bool :=
  (itypeh p =? ty q) &&
  ((ty q =? 0) ||
   ((math p =? mat q)%Z && (mth p =? mt q)%Z &&
    ((ty q =? 1) || (ty q =? 2) || ((mat1h p =? mat1 q)%Z && (mt1h p =? mt1 q)%Z)))).
(** boxer2mat.f:51-79: reading on until a record answers. *)
Fixpoint seek (q : request) (rs : list rec) : result (list rec) :=
  match rs with
  | [] => Halt NotFound
  | p :: rs' =>
      if itypeh p =? 9 then Halt NotFound
      else if 1880 <? length (xval p) then Halt (Stop 3)
      else if 1900 <? length (icon p) then Halt (Stop 4)
      else if answers q p then Ok rs else seek q rs'
  end.
(** boxer2mat.f:131-149: rows and columns in reverse order (one line for a
    vector), except transfer matrices (ITYPE=4 with MT1=0). *)
Definition written (q : request) (p : rec) (m : matrix) : list (list Qc) :=
  let transfer := (ty q =? 4) && (mt1 q =? 0)%Z in
  if ncol p =? 1 then [map (fun i => m (nrow p + 1 - i) 1) (seq 1 (nrow p))]
  else map (fun i => map (fun j => m (if transfer then i else nrow p + 1 - i) (if transfer then j else ncol p + 1 - j)) (seq 1 (ncol p))) (seq 1 (nrow p)).
(** boxer2mat.f:46-149: requests in turn, until one with MAT=0; [out] collects what
    has been written. *)
Fixpoint serve (c0 : matrix) (qs : list request) (rs : list rec) : list (list (list Qc)) * option halt :=
  match qs with
  | [] => ([], Some ReadError)
  | q :: qs' =>
      if (mat q =? 0)%Z then ([], None)
      else match seek q rs with
      | Halt h => ([], Some h)
      | Ok rs1 =>
          match load_set rs1 1 {| c := c0; nx := 0; row := 1; col := 0 |} with
          | Halt h => ([], Some h)
          | Ok (p, m, rs2) => let (out, e) := serve m qs' rs2 in (written q p m :: out, e)
          end
      end
  end.
