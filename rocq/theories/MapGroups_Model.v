(** Mapping group-wise factors on a continuous energy grid.
    Source: /repo/ASAPy/XsecSampler.py:241-334 (map_groups_to_continuous).
    Numbers are exact rationals; NaN energies are not modelled. *)
From Verif Require Import Num.
Local Open Scope Qc_scope.

(** Python [min] / [max] of a non-empty list; [None] = ValueError on empty. *)
Fixpoint list_min (l : list Qc) : option Qc :=
  match l with
  | [] => None
  | x :: r => match list_min r with None => Some x | Some m => Some (if qltb m x then m else x) end
  end.
Fixpoint list_max (l : list Qc) : option Qc :=
  match l with
  | [] => None
  | x :: r => match list_max r with None => Some x | Some m => Some (if qltb x m then m else x) end
  end.

(** Python [sorted] (XsecSampler.py:289). *)
Fixpoint insert (x : Qc) (l : list Qc) : list Qc :=
  match l with
  | [] => [x]
  | y :: r => if qleb x y then x :: l else y :: insert x r
  end.
Fixpoint sort (l : list Qc) : list Qc :=
  match l with [] => [] | x :: r => insert x (sort r) end.

(** [np.searchsorted(sorted_e, e)] with the default side 'left'
    (XsecSampler.py:296): the first index whose element is not below [e]. *)
Fixpoint ssleft (l : list Qc) (e : Qc) : nat :=
  match l with
  | [] => 0%nat
  | x :: r => if qltb x e then S (ssleft r e) else 0%nat
  end.

(** What the call raises. *)
Inductive err := EmptyBins | MinTooHigh | MaxTooLow | KeyError (g : Z).
Inductive result (A : Type) := Ok (a : A) | Raise (e : err).
Arguments Ok {A}. Arguments Raise {A}.

(** Label lookup [multi_group_val[group_nums]] (XsecSampler.py:306): pandas
    raises KeyError when a label is missing. *)
Fixpoint pick (val : Z -> option Qc) (gs : list Z) : result (list Qc) :=
  match gs with
  | [] => Ok []
  | g :: r => match val g with
              | None => Raise (KeyError g)
              | Some v => match pick val r with Ok l => Ok (v :: l) | Raise e => Raise e end
              end
  end.

(** XsecSampler.py:296-304: group number of one energy, with the out-of-range
    energies moved to an existing group. *)
Definition group_num (n : nat) (sorted_e : list Qc) (min_e max_e e : Qc) : Z :=
  if qltb max_e e then 1%Z
  else if qltb e min_e then Z.of_nat n
  else (1 + Z.of_nat n - Z.of_nat (ssleft sorted_e e))%Z.

(** XsecSampler.py:308-309: overwrite the out-of-range entries. *)
Definition overwrite (min_e max_e out e v : Qc) : Qc :=
  if qltb max_e e then out else if qltb e min_e then out else v.

Fixpoint map2 {A B C} (f : A -> B -> C) (l : list A) (m : list B) : list C :=
  match l, m with a :: l', b :: m' => f a b :: map2 f l' m' | _, _ => [] end.

(** XsecSampler.py:241-334. *)
Definition map_groups (es hs : list Qc) (val : Z -> option Qc)
    (max_arg min_arg : option Qc) (out : Qc) : result (list Qc) :=
  match list_max hs, list_min hs with
  | Some mx, Some mn =>
      let max_e := match max_arg with Some m => m | None => mx end in
      let min_e := match min_arg with Some m => m | None => mn / qz 10 end in
      if qeqb min_e mn then Raise MinTooHigh
      else
        let bins := hs ++ [min_e] in
        let h0 := hd 0 bins in
        if negb (qeqb h0 max_e) && qltb max_e h0 then Raise MaxTooLow
        else
          let bins' := max_e :: tl bins in
          let sorted_e := sort bins' in
          let gs := map (group_num (length hs) sorted_e min_e max_e) es in
          match pick val gs with
          | Raise e => Raise e
          | Ok vs => Ok (map2 (overwrite min_e max_e out) es vs)
          end
  | _, _ => Raise EmptyBins
  end.
