(** Atomic masses and weights.
    Source: /repo/ASAPy/data/data.py:141-215; the abundances (13-111) are those of Sab_Model.v.
    Simplifications: exact decimal numbers; the file of masses is its lines; texts are ASCII;
    an element's name is used as it is (no special characters of regular expressions);
    masses loaded before are a state that is handed on; [None] is an exception. *)
From Coq Require Import ZArith NArith QArith Qcanon List Bool String Ascii.
From Verif Require Import Num Text Dec PyNum.
From Verif Require Sampler_Model Sab_Model.
Import ListNotations.
Local Open Scope list_scope.
Local Open Scope nat_scope.

(** [_ATOMIC_MASS] (data.py:141). *)
Definition masses := list (text * Qc).
Fixpoint mass_at (k : text) (d : masses) : option Qc := match d with [] => None | (k', v) :: r => if eqt k k' then Some v else mass_at k r end.
Fixpoint set_mass (k : text) (v : Qc) (d : masses) : masses :=
  match d with [] => [(k, v)] | (k', v') :: r => if eqt k k' then (k, v) :: r else (k', v') :: set_mass k v r end.
(** [line[i:j]]. *)
Definition col (i j : nat) (l : text) : text := firstn (j - i) (skipn i l).
(** data.py:170-173. *)
Definition mass_line (l : text) : option (text * Qc) :=
  match py_int (col 16 19 l), py_float (col 96 99 l), py_float (col 100 106 l ++ "."%char :: col 107 112 l) with
  | Some a, Some u, Some m => Some (Sampler_Model.lower (trim (col 20 22 l) ++ decZ a), (u + qc 1 1000000 * m)%Qc)
  | _, _, _ => None
  end.
(** data.py:169-173; whether it came to the end. *)
Fixpoint load_lines (ls : list text) (d : masses) : masses * bool :=
  match ls with
  | [] => (d, true)
  | l :: r => match mass_line l with Some (k, v) => load_lines r (set_mass k v d) | None => (d, false) end
  end.
(** data.py:182-185: the isotopes of one element. *)
Fixpoint add_isotopes (el : string) (t : list (string * Q)) (d : masses) : masses * bool :=
  match t with
  | [] => (d, true)
  | (iso, ab) :: r =>
      if Sab_Model.is_isotope el iso then
        let k := Sampler_Model.lower (str el) ++ ["0"%char] in
        match mass_at k d, mass_at (Sampler_Model.lower (str iso)) d with
        | Some w, Some m => add_isotopes el r (set_mass k (w + Q2Qc ab * m)%Qc d)
        | _, _ => (d, false)
        end
      else add_isotopes el r d
  end.
(** data.py:179-185. *)
Fixpoint add_elements (els : list string) (d : masses) : masses * bool :=
  match els with
  | [] => (d, true)
  | el :: r =>
      let (d', ok) := add_isotopes el Sab_Model.natural_abundance (set_mass (Sampler_Model.lower (str el) ++ ["0"%char]) 0%Qc d) in
      if ok then add_elements r d' else (d', false)
  end.
(** data.py:179. *)
Definition natural : list string := ["C"; "Zn"; "Pt"; "Os"; "Tl"]%string.
(** data.py:163-185. *)
Definition load (ls : list text) : masses * bool :=
  let (d, ok) := load_lines (skipn 39 ls) [] in if ok then add_elements natural d else (d, false).
(** data.py:187-189: up to the first underscore. *)
Fixpoint ground (t : text) : text := match t with [] => [] | c :: r => if eqc c "_" then [] else c :: ground r end.
(** data.py:146-191. *)
Definition atomic_mass (ls : list text) (d : masses) (isotope : text) : option Qc * masses :=
  let (d', ok) := match d with [] => load ls | _ => (d, true) end in
  if ok then (mass_at (Sampler_Model.lower (ground isotope)) d', d') else (None, d').
(** data.py:208-211. *)
Fixpoint weigh (ls : list text) (el : string) (t : list (string * Q)) (w : Qc) (d : masses) : option Qc * masses :=
  match t with
  | [] => (Some w, d)
  | (iso, ab) :: r =>
      if Sab_Model.is_isotope el iso then
        match atomic_mass ls d (str iso) with
        | (Some m, d') => weigh ls el r (w + m * Q2Qc ab)%Qc d'
        | (None, d') => (None, d')
        end
      else weigh ls el r w d
  end.
(** data.py:194-215. *)
Definition atomic_weight (ls : list text) (d : masses) (el : string) : option Qc * masses :=
  match weigh ls el Sab_Model.natural_abundance 0%Qc d with
  | (Some w, d') => if qltb 0%Qc w then (Some w, d') else (None, d')
  | r => r
  end.
