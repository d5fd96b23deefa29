(** The covariance store: writing one nuclide's reaction, listing, loading.
    Source: /repo/ASAPy/EndfToCov.py:350-395, /repo/ASAPy/AsapyCovStorage.py:1-125,
    /repo/ASAPy/XsecSampler.py:60-95, 897-901.
    Simplifications: exact numbers (reals for correlations because of the square
    root, rationals elsewhere) with the IEEE special values; a store is a list of
    keys with one frame each, [put] replaces; all calls write to one store file
    (the code picks the file by the number of groups); the two columns x-sec(1)
    and x-sec(2) are always equal and kept once, likewise rel.s.d. and s.d.; group
    labels 1, ..., n are positions; printing is left out; floating point warnings
    are not errors. *)
From Coq Require Import Reals Qreals ZArith List Bool Arith.
From Verif Require Import Num XNum Text Dec PyNum Boxer_Model.
Import ListNotations.
Local Open Scope list_scope.
Local Open Scope nat_scope.

(** Floats in a correlation. *)
Inductive ext := Fn (x : R) | EPInf | ENInf | ENaN.
Definition rltb (x y : R) : bool := if Rlt_dec x y then true else false.
(** IEEE division of finite numbers. *)
Definition ediv (x y : R) : ext :=
  if Req_EM_T y 0 then (if Req_EM_T x 0 then ENaN else if Rlt_dec 0 x then EPInf else ENInf) else Fn (x / y)%R.
(** IEEE division by one float of a float. *)
Definition edivide (a b : ext) : ext :=
  match a, b with
  | ENaN, _ | _, ENaN => ENaN
  | Fn x, Fn y => ediv x y
  | Fn _, _ => Fn 0
  | EPInf, Fn y => if Rlt_dec y 0 then ENInf else EPInf
  | ENInf, Fn y => if Rlt_dec y 0 then EPInf else ENInf
  | _, _ => ENaN
  end.
(** IEEE [a > b]. *)
Definition egt (a b : ext) : bool :=
  match a, b with
  | ENaN, _ | _, ENaN => false
  | Fn x, Fn y => rltb y x
  | EPInf, EPInf => false
  | EPInf, _ => true
  | Fn _, ENInf => true
  | _, _ => false
  end.

Definition q2r (q : Qc) : R := Q2R (this q).
Definition cell {A} (d : A) (c : list (list A)) (i j : nat) : A := nth j (nth i c []) d.
Definition matrix_of {A} (n : nat) (f : nat -> nat -> A) : list (list A) := map (fun i => map (f i) (seq 0 n)) (seq 0 n).

(** CovManipulation.py:84-94: above the diagonal a quotient x, below 0; the sum with
    the transpose minus the diagonal gives x + 0 - 0 off the diagonal, 1 + 1 - 1
    on it. *)
Definition correlation (c : list (list Qc)) (i j : nat) : ext :=
  let q i j := q2r (cell 0%Qc c i j) in
  if i =? j then Fn 1
  else let (a, b) := if i <? j then (i, j) else (j, i) in ediv (q a b) (sqrt (Rabs (q a a * q b b))).
(** EndfToCov.py:370-371: [corr[corr > 1] = 1], [corr[corr < -1] = -1]. *)
Definition clip (e : ext) : ext := let e := if egt e (Fn 1) then Fn 1 else e in if egt (Fn (-1)) e then Fn (-1) else e.
(** EndfToCov.py:367: [np.abs(corr) > 1] for one entry. *)
Definition big (e : ext) : bool := egt e (Fn 1) || egt (Fn (-1)) e.
(** EndfToCov.py:377: [df.fillna(0)] for one entry. *)
Definition fillna (e : ext) : ext := match e with ENaN => Fn 0 | _ => e end.

(** A row of the group table, AsapyCovStorage.py:46-55. *)
Record group := { e_low : Qc; e_high : Qc; xsec : xnum; rel : xnum; sdev : xnum }.
Inductive frame := Corr (c : list (list ext)) | Dev (g : list group).

(** EndfToCov.py:382-389: equal lengths are ensured by the caller. *)
Fixpoint table (hi lo x s : list Qc) : list group :=
  match hi, lo, x, s with
  | h :: hi', l :: lo', a :: x', d :: s' =>
      {| e_low := l; e_high := h; xsec := Fin a; rel := xdiv (Fin d) (Fin a); sdev := Fin d |} :: table hi' lo' x' s'
  | _, _, _, _ => []
  end.
(** EndfToCov.py:392-394, one row: each line looks at rel.s.d.(1) again. *)
Definition set_xsec (g : group) : group :=
  if xisnan (rel g) then {| e_low := e_low g; e_high := e_high g; xsec := Fin 0; rel := rel g; sdev := sdev g |} else g.
Definition tiny : Qc := qc 1 10000000.
Definition set_sdev (g : group) : group :=
  if xisnan (rel g) then {| e_low := e_low g; e_high := e_high g; xsec := xsec g; rel := rel g; sdev := Fin tiny |} else g.
Definition set_rel (g : group) : group :=
  if xisnan (rel g) then {| e_low := e_low g; e_high := e_high g; xsec := xsec g; rel := Fin tiny; sdev := sdev g |} else g.
(** AsapyCovStorage.py:103-104: neighbouring rows. *)
Fixpoint falling (l : list Qc) : bool :=
  match l with x :: ((y :: _) as r) => qltb y x && falling r | _ => true end.

(** A store and its operations. *)
Definition store := list (text * frame).
Fixpoint get (k : text) (s : store) : option frame :=
  match s with [] => None | (k', f) :: r => if eqt k k' then Some f else get k r end.
Definition put (k : text) (f : frame) (s : store) : store :=
  (k, f) :: filter (fun e => negb (eqt k (fst e))) s.

(** AsapyCovStorage.py:10-11. *)
Definition slash : ascii := "/"%char.
Definition key (mat1 mt1 mat2 mt2 kind : text) : text :=
  mat1 ++ slash :: mt1 ++ slash :: mat2 ++ slash :: mt2 ++ slash :: kind.
Definition corr_key (zaid mt : text) : text := key zaid mt zaid mt (str "corr").
Definition dev_key (zaid mt : text) : text := key zaid mt zaid mt (str "std_dev").

(** How [process_cov_to_h5] ends. *)
Inductive ending := Done | Skipped | Raised.
(** EndfToCov.py:350-395; [known] tells whether [mt] is in REACTION_NAME, which the
    message for a skipped reaction looks up. *)
Definition process (s : store) (zaid : text) (mt : Z) (known : bool) (ls : list text) : store * ending :=
  match read_matrix ls with
  | BoxrError => (s, if known then Skipped else Raised)
  | NoBlocks | MissingBlock | BadShape => (s, Raised)
  | Data bounds x sd cov =>
      let n := length cov in
      let corr := matrix_of n (correlation cov) in
      let corr := if existsb (existsb big) corr then map (map clip) corr else corr in
      let corr := map (map fillna) corr in
      let s1 := put (corr_key zaid (decZ mt)) (Corr corr) s in
      let hi := removelast bounds in
      let lo := tl bounds in
      if negb (length hi =? n) || negb (length lo =? n) || negb (length x =? n) || negb (length sd =? n) then (s1, Raised)
      else
        let rows := map set_rel (map set_sdev (map set_xsec (table hi lo x sd))) in
        if falling (map e_low rows) && falling (map e_high rows)
        then (put (dev_key zaid (decZ mt)) (Dev rows) s1, Done)
        else (s1, Raised)
  end.

(** [k.split('/')]. *)
Fixpoint split (c : ascii) (t : text) : list text :=
  match t with
  | [] => [[]]
  | a :: r => if eqc a c then [] :: split c r else cons_head a (split c r)
  end.
(** Sorted set of numbers. *)
Fixpoint insert (z : Z) (l : list Z) : list Z :=
  match l with
  | [] => [z]
  | y :: r => if (z <? y)%Z then z :: l else if (z =? y)%Z then l else y :: insert z r
  end.
(** XsecSampler.py:899-901: iterating over a store yields its keys with a leading
    slash; [None] is ValueError or IndexError. *)
Fixpoint stored_mts (s : store) : option (list Z) :=
  match s with
  | [] => Some []
  | (k, _) :: r =>
      match split slash (slash :: k) with
      | _ :: _ :: m :: _ =>
          match py_int m, stored_mts r with Some z, Some l => Some (insert z l) | _, _ => None end
      | _ => None
      end
  end.

(** Python's [max] of a non-empty list. *)
Definition pymax (x : ext) (l : list ext) : ext := fold_left (fun m y => if egt y m then y else m) l x.
(** XsecSampler.py:60-95 with [zaid_2], [mt_2] and [fill_corr_diag] left at their
    defaults; [None] is KeyError or ValueError (no group). *)
Definition load (s : store) (zaid mt : text) : option (list group * list (list ext)) :=
  match get (dev_key zaid mt) s, get (corr_key zaid mt) s with
  | Some (Dev g), Some (Corr c) =>
      match map (fun i => cell ENaN c i i) (seq 0 (length c)), g with
      | d :: ds, r :: _ =>
          let m := pymax d ds in
          let g' := if qltb (e_high r) (e_low r)
                    then map (fun r => {| e_low := e_high r; e_high := e_low r; xsec := xsec r; rel := rel r; sdev := sdev r |}) g
                    else g in
          Some (g', map (map (fun e => edivide e m)) c)
      | _, _ => None
      end
  | _, _ => None
  end.
