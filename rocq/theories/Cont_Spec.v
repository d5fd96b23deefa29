(** Continuous tabular distributions in a file. *)
From Coq Require Import ZArith QArith Qcanon List Arith.
From Verif Require Import Num Cont_Model.
Import ListNotations.
Local Open Scope nat_scope.

Definition nonnegative (l : list point) : Prop := Forall (fun t => 0 <= pp t)%Qc l.
(** The cumulative probability of the last line. *)
Definition lines_weight (l : list point) (w : Qc) : Prop := exists t r, l = r ++ [t] /\ w = pc t.
(** Fit for the file: there is something in each part, probabilities are not negative,
    the weight of the lines is between 0 and 1. *)
Definition fit (d : dist) : Prop :=
  match d with
  | Tab _ l => l <> [] /\ nonnegative l
  | Disc l => l <> [] /\ nonnegative l
  | Mix _ a _ c => nonnegative a /\ nonnegative c /\ c <> [] /\ exists w, lines_weight a w /\ (0 <= w)%Qc /\ (w <= 1)%Qc
  end.
Definition plain (i : scheme) : Prop := i = Histogram \/ i = LinLin.
(** All of it is in the file. *)
Definition plainly (d : dist) : Prop :=
  match d with
  | Tab i _ => plain i
  | Disc _ => True
  | Mix w a i _ => plain i /\ exists p, lines_weight a p /\ w = [p; (1 - p)%Qc]
  end.
(** The same points, in lines and in the continuous part. *)
Definition same_points (d d' : dist) : Prop :=
  match d, d' with
  | Tab _ l, Tab _ l' => l' = l
  | Disc l, Disc l' => l' = l
  | Mix _ a _ c, Mix _ a' _ c' => a' = a /\ c' = c
  | _, _ => False
  end.
(** What ACE means by the same points in MeV: lines are given by their probabilities,
    the continuous part by densities. *)
Definition in_ev (ev : Qc) (t u : point) : Prop := px u = (px t * ev)%Qc /\ pp u = pp t /\ pc u = pc t.
Definition per_ev (ev : Qc) (t u : point) : Prop := px u = (px t * ev)%Qc /\ (pp u * ev)%Qc = pp t /\ pc u = pc t.
(** The lines [ls] and the continuous part [cs] of the file make [d]. *)
Definition ace_dist (ev : Qc) (i : scheme) (ls cs : list point) (d : dist) : Prop :=
  match d with
  | Tab i' c => ls = [] /\ i' = i /\ Forall2 (per_ev ev) cs c
  | Disc a => ls <> [] /\ cs = [] /\ Forall2 (in_ev ev) ls a
  | Mix w a i' c => ls <> [] /\ cs <> [] /\ i' = i /\ Forall2 (in_ev ev) ls a /\ Forall2 (per_ev ev) cs c /\
      exists p, w = [p; (1 - p)%Qc] /\ let q := qsum (map pp ls) in ((q <= 1)%Qc /\ p = q) \/ ((1 < q)%Qc /\ p = 1%Qc)
  end.
