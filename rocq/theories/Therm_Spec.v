(** What a thermal deck is to say, and what a run of NJOY is to leave (independent of
    templates and copying). *)
From Coq Require Import List Bool Arith ZArith Ascii String.
From Verif Require Import Text Dec Deck_Model Deck_Spec Therm_Model.
Import ListNotations.
Local Open Scope nat_scope.
Local Open Scope list_scope.

Section Deck.
Variables (x : inputs) (m : material) (emax error : text) (l : list temperature).
Definition nt : text := num (List.length l).
Definition ts : list text := map shown l.
(** Whether there is elastic scattering, its MT number for THERMR, and 0 when it is
    coherent or absent, 1 when it is incoherent. *)
Definition elastic : text := match coherence x with Some _ => w "1" | None => w "0" end.
Definition elastic_mt : text := match coherence x with Some _ => w "223" | None => w "0" end.
Definition elastic_type : text := match coherence x with Some h => decZ (h - 1) | None => w "0" end.
Definition pointwise : list card :=
  [c1 [w "reconr"]; c0 [w "20"; w "22"]; c1 [titled (library (lib x) ++ w " PENDF for " ++ zsymam x)]; c1 [decZ (mat x); w "2"]; c1 [error];
   c1 [titled (library (lib x) ++ w ": " ++ zsymam x)]; c1 [w "'Processed by NJOY'"]; c1 [w "0"];
   c1 [w "broadr"]; c0 [w "20"; w "22"; w "23"]; c1 [decZ (mat x); nt; w "0"; w "0"; w "0."]; c1 [error]; c0 ts; c1 [w "0"]].
Definition free_gas : list card :=
  [c1 [w "thermr"]; c0 [w "0"; w "23"; w "24"]; c1 [w "0"; decZ (mat x); w "12"; nt; w "1"; w "0"; w "0"; w "1"; w "221"; w "1"]; c0 ts; c0 [error; emax]].
Definition bound : list card :=
  [c1 [w "thermr"]; c0 [w "21"; w "24"; w "25"]; c1 [decZ (mat_thermal x); decZ (mat x); w "16"; nt; w "2"; elastic; w "0"; decZ (atoms x); w "222"; w "1"]; c0 ts; c0 [error; emax]].
Definition thermal_acer (i : nat) (t : temperature) : list card :=
  [c1 [w "acer"]; c0 [w "20"; w "25"; w "0"; num (26 + 2 * i); num (27 + 2 * i)]; c1 [w "2"; w "0"; w "1"; w "." ++ two_digits (i + 1)];
   c1 [titled (library (lib x) ++ w ": " ++ zsymam_thermal x ++ w " processed by NJOY")]; c1 [decZ (mat x); shown t; titled (name m)];
   c1 (map decZ (firstn 3 (zaids m))); c1 [w "222"; w "64"; elastic_mt; elastic_type; num (nmix m); emax; w "2"]].
Definition thermal_cards : list card := pointwise ++ free_gas ++ bound ++ concat (mapi thermal_acer 0 l) ++ [c0 [w "stop"]].
End Deck.
Definition thermal_files (ace xsdir : text) (l : list temperature) : list (nat * text) :=
  concat (mapi (fun i t => [(26 + 2 * i, ace ++ w "_" ++ tenths t); (27 + 2 * i, xsdir ++ w "_" ++ tenths t)]) 0 l).

Record proper (x : inputs) (given : option (list temperature)) (error : text) : Prop := {
  p_error : numeral error;
  p_values : Forall numeral (list_values x);
  p_temps : forall l, temps_of x given = Some l -> l <> [] /\ Forall (fun t => numeral (shown t)) l;
  p_names : quotable (zsymam x) /\ quotable (zsymam_thermal x) /\ quotable (fst (fst (lib x))) }.

(** *** Files *)
(** The last tape of the list that is to be moved to [f] and is there. *)
Fixpoint delivered (tapeout : list (nat * text)) (d : dir) (f : text) : option text :=
  match tapeout with
  | [] => None
  | (n, f') :: r =>
      match delivered r d f with
      | Some c => Some c
      | None => if eqt f f' then d (tape n) else None
      end
  end.
(** The tapes NJOY is to find. *)
Definition tapes (tapein : list (nat * text)) (fs : dir) (d : dir) : Prop :=
  forall name c, d name = Some c <-> exists n f, In (n, f) tapein /\ name = tape n /\ fs f = Some c.
(** The files after the input has been written. *)
Definition noted (commands : text) (input : option text) (fs : dir) : dir := match input with Some f => write f commands fs | None => fs end.
