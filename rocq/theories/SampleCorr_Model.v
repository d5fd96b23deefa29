(** Rank reordering and the group bookkeeping of correlated sampling.
    Source: /repo/ASAPy/CovManipulation.py:32-50 and 273-436.
    Simplifications: exact rationals, no NaN among scores and draws; a 2-d array
    is the list of its columns; the correlation factor, the random scores and
    the percent-point draws are external (arguments [scores] and [draw]). *)
From Verif Require Import Num Text Sampler_Model.
Local Open Scope nat_scope.
Local Open Scope list_scope.

(** Stable insertion sort by key. *)
Section Sort.
Context {A : Type} (key : A -> Qc).
Fixpoint insert (p : A) (l : list A) : list A :=
  match l with
  | [] => [p]
  | y :: r => if qleb (key p) (key y) then p :: l else y :: insert p r
  end.
Definition isort (l : list A) : list A := fold_right insert [] l.
End Sort.

(** [np.sort] of one column, line 48. *)
Definition sortq (l : list Qc) : list Qc := isort (fun x => x) l.
(** The stable argsort inside [rankdata(..., method='ordinal')]. *)
Definition argsort (l : list Qc) : list nat := map snd (isort fst (combine l (seq 0 (length l)))).
Fixpoint index_of (i : nat) (l : list nat) : nat :=
  match l with
  | [] => 0
  | j :: r => if Nat.eqb i j then 0 else S (index_of i r)
  end.
(** CovManipulation.py:37-39, one column: ordinal ranks counted from 0. *)
Definition rank_col (l : list Qc) : list nat := map (fun i => index_of i (argsort l)) (seq 0 (length l)).
(** CovManipulation.py:48-49, one column. *)
Definition order_col (r : list nat) (s : list Qc) : list Qc := map (fun i => nth i (sortq s) 0%Qc) r.

(** CovManipulation.py:32-39 and 42-50, all columns. *)
Definition rank (arr : list (list Qc)) : list (list nat) := map rank_col arr.
Definition order (r : list (list nat)) (samples : list (list Qc)) : list (list Qc) :=
  map (fun j => order_col (nth j r []) (nth j samples [])) (seq 0 (length samples)).

(** Line 304: the deviation below which a group is not sampled. *)
Definition tiny : Qc := Q2Qc (1 # (10 ^ 30)).

Fixpoint lmin (l : list Qc) : option Qc :=
  match l with
  | [] => None
  | x :: r => match lmin r with None => Some x | Some m => Some (if qltb m x then m else x) end
  end.

Definition orb_list (a b : list bool) : list bool := map (fun p => fst p || snd p) (combine a b).

(** Lines 302-321: the groups not to sample; [None] when the variable stays
    Python's None.  The outer [None] is the ValueError of [min] of nothing. *)
Definition mask (mean std dg : list Qc) (lognormal : bool) : option (option (list bool)) :=
  match lmin std, lmin mean with
  | Some smin, Some mmin =>
      let m1 := if qleb smin tiny then Some (map (fun s => qleb s tiny) std) else None in
      let zero_mean := map (fun x => qeqb x 0%Qc) mean in
      let m2 := if qeqb mmin 0%Qc && lognormal
                then match m1 with Some m => Some (orb_list m zero_mean) | None => Some zero_mean end
                else m1 in
      let zero_corr := map (fun x => qeqb x 0%Qc) dg in
      let m3 := if existsb (fun b => b) zero_corr
                then match m2 with Some m => Some (orb_list m zero_corr) | None => None end
                else m2 in
      Some m3
  | _, _ => None
  end.

(** Lines 429-434: put sampled columns and constant columns back in place. *)
Fixpoint reinsert (ns : nat) (m : list bool) (mean : list Qc) (dists : list (list Qc)) : list (list Qc) :=
  match m, mean with
  | true :: m', x :: mean' => repeat x ns :: reinsert ns m' mean' dists
  | false :: m', _ :: mean' =>
      match dists with
      | d :: dists' => d :: reinsert ns m' mean' dists'
      | [] => reinsert ns m' mean' []
      end
  | _, _ => []
  end.

Inductive cerr := EmptyInput | BadDistro.
Inductive cresult (A : Type) := COk (a : A) | CRaise (e : cerr).
Arguments COk {A}. Arguments CRaise {A}.

(** Lines 273-436.  [dg] is the diagonal of the correlation matrix;
    [scores k] the [k] columns of the score matrix N (line 378) and
    [draw d i m s] the percent-point draws of variable [i] with mean [m] and
    deviation [s] (lines 404-417, after the lognormal post-processing).
    Result: one column per group. *)
Definition sample_with_corr (scores : nat -> list (list Qc)) (draw : dist -> nat -> Qc -> Qc -> list Qc)
    (mean std dg : list Qc) (ns : nat) (distro : text) : cresult (list (list Qc)) :=
  match mask mean std dg (eqt distro (str "lognormal")) with
  | None => CRaise EmptyInput
  | Some om =>
      let keep := match om with Some m => map negb m | None => map (fun _ => true) mean end in
      let mean' := select keep mean in
      let std' := select keep std in
      let nv := length mean' in
      if Nat.eqb nv 0 then COk (map (fun x => repeat x ns) mean)
      else
        let d := lower distro in
        let dd := if eqt d (str "normal") then Some Normal
                  else if eqt d (str "lognormal") then Some LogNormal
                  else if eqt d (str "uniform") then Some Uniform else None in
        match dd with
        | None => CRaise BadDistro
        | Some dd =>
            let r := rank (scores nv) in
            let dists := map (fun i => draw dd i (nth i mean' 0%Qc) (nth i std' 0%Qc)) (seq 0 nv) in
            let dists := order r dists in
            COk (match om with Some m => reinsert ns m mean dists | None => dists end)
        end
  end.
