(** Continuous tabular energy distributions: from ACE, to HDF5 and back.
    Source: /repo/ASAPy/data/energy_distribution.py:1023-1277 (ContinuousTabular);
            /repo/ASAPy/data/univariate.py (Discrete, Tabular, Mixture).
    Simplifications: a distribution holds as many x, p and c as each other (numpy refuses
    most others); arrays come back from HDF5 as written; offsets and counts in the file
    are natural numbers; integers read from XSS are given as such. *)
From Coq Require Import ZArith QArith Qcanon List Bool Arith.
From Verif Require Import Num.
Import ListNotations.
Local Open Scope nat_scope.

(** univariate.py:12-13. *)
Inductive scheme := Histogram | LinLin | LinLog | LogLin | LogLog.
(** Value, probability (density), cumulative probability. *)
Definition point := (Qc * Qc * Qc)%type.
Definition px (t : point) : Qc := fst (fst t).
Definition pp (t : point) : Qc := snd (fst t).
Definition pc (t : point) : Qc := snd t.
(** The distributions that occur: univariate.py:312 (Tabular), 37 (Discrete), 453
    (Mixture of a Discrete and a Tabular). *)
Inductive dist :=
| Tab (i : scheme) (l : list point)
| Disc (l : list point)
| Mix (w : list Qc) (d : list point) (i : scheme) (c : list point).
(** univariate.py: [__len__]. *)
Definition size (d : dist) : nat := match d with Tab _ l => length l | Disc l => length l | Mix _ a _ c => length a + length c end.

(** What the group holds: energy_distribution.py:1078-1128. *)
Record file := mkFile {
  f_energy : list Qc; f_interp : list (nat * nat);       (* incident energies; breakpoints and codes *)
  f_pairs : list point;                                   (* columns of the (3, n_pairs) array *)
  f_offsets : list nat; f_schemes : list nat; f_discrete : list nat }.
(** energy_distribution.py:1106, 1115: [1 if ... == 'histogram' else 2]. *)
Definition code (i : scheme) : nat := match i with Histogram => 1 | _ => 2 end.
(** energy_distribution.py:1099-1122: columns, scheme and number of lines of one
    distribution. *)
Definition columns (d : dist) : list point := match d with Tab _ l => l | Disc l => l | Mix _ a _ c => a ++ c end.
Definition scheme_of (d : dist) : nat := match d with Tab i _ => code i | Disc _ => 1 | Mix _ _ i _ => code i end.
Definition lines_of (d : dist) : nat := match d with Tab _ _ => 0 | Disc l => length l | Mix _ a _ _ => length a end.
(** energy_distribution.py:1096-1122: the running offset. *)
Fixpoint offsets_from (j : nat) (ds : list dist) : list nat :=
  match ds with [] => [] | d :: r => j :: offsets_from (j + size d) r end.
(** energy_distribution.py:1069-1128. *)
Definition to_hdf5 (energy : list Qc) (interp : list (nat * nat)) (ds : list dist) : file :=
  mkFile energy interp (flat_map columns ds) (offsets_from 0 ds) (map scheme_of ds) (map lines_of ds).

(** function.py:13-14: INTERPOLATION_SCHEME; [None]: KeyError. *)
Definition scheme_at (k : nat) : option scheme :=
  match k with 1 => Some Histogram | 2 => Some LinLin | 3 => Some LinLog | 4 => Some LogLin | 5 => Some LogLog | _ => None end.
(** [data[:, a:b]]. *)
Definition slice (l : list point) (a b : nat) : list point := firstn (b - a) (skipn a l).
(** univariate.py: the setters of [p] refuse negative probabilities. *)
Definition nonneg (l : list point) : bool := forallb (fun t => qleb 0 (pp t)) l.
(** The local variables that outlive a turn of the loop. *)
Record vars := mkVars { v_disc : option (list point); v_cont : option (scheme * list point) }.
(** energy_distribution.py:1161-1195: one turn; [None]: an exception.
    [offset i], [offset (i+1)] etc. are looked up by the caller. *)
Definition turn (f : file) (v : vars) (i n_energy : nat) : option (dist * vars) :=
  match nth_error (f_offsets f) i, nth_error (f_discrete f) i with
  | Some j, Some m =>
      let next := if i <? n_energy - 1 then nth_error (f_offsets f) (i + 1) else Some (length (f_pairs f)) in
      match next with
      | None => None
      | Some e =>
          let n := e - j in
          let disc := slice (f_pairs f) j (j + m) in
          let cont := slice (f_pairs f) (j + m) (j + n) in
          match (if 0 <? m then if nonneg disc then Some (Some disc) else None else Some (v_disc v)) with
          | None => None
          | Some vd =>
              match (if m <? n then match nth_error (f_schemes f) i with
                                    | Some k => match scheme_at k with
                                                | Some s => if nonneg cont then Some (Some (s, cont)) else None
                                                | None => None end
                                    | None => None end
                     else Some (v_cont v)) with
              | None => None
              | Some vc =>
                  let v' := mkVars vd vc in
                  if m =? 0 then match vc with Some (s, l) => Some (Tab s l, v') | None => None end
                  else if m =? n then match vd with Some l => Some (Disc l, v') | None => None end
                  else match vd, vc with
                       | Some a, Some (s, c) =>
                           let p := pc (last a (0, 0, 0)%Qc) in
                           if qleb 0 p && qleb 0 (1 - p) then Some (Mix [p; (1 - p)%Qc] a s c, v') else None
                       | _, _ => None
                       end
              end
          end
      end
  | _, _ => None
  end.
(** energy_distribution.py:1159-1197: the loop over incident energies. *)
Fixpoint turns (f : file) (v : vars) (is : list nat) (n_energy : nat) : option (list dist) :=
  match is with
  | [] => Some []
  | i :: r => match turn f v i n_energy with
              | Some (d, v') => match turns f v' r n_energy with Some ds => Some (d :: ds) | None => None end
              | None => None
              end
  end.
(** energy_distribution.py:1130-1200. *)
Definition from_hdf5 (f : file) : option (list Qc * list (nat * nat) * list dist) :=
  match turns f (mkVars None None) (seq 0 (length (f_energy f))) (length (f_energy f)) with
  | Some ds => Some (f_energy f, f_interp f, ds)
  | None => None
  end.

(** energy_distribution.py:1246-1274: one distribution from ACE; [inttp] is the first
    word, [data] the three rows; [ev] is EV_PER_MEV. *)
Definition from_ace_one (ev : Qc) (inttp : nat) (data : list point) : option dist :=
  let intt0 := inttp mod 10 in
  let n_lines := (inttp - intt0) / 10 in
  let s := match intt0 with 1 => Histogram | _ => LinLin end in
  let data := map (fun t => (px t * ev, pp t, pc t)%Qc) data in
  let cont := map (fun t => (px t, pp t / ev, pc t)%Qc) (skipn n_lines data) in
  let disc := firstn n_lines data in
  if nonneg cont then
    if 0 <? n_lines then
      if nonneg disc then
        if n_lines =? length data then Some (Disc disc)
        else let q := qsum (map pp disc) in
             let p := if qleb q 1 then q else 1%Qc in
             Some (Mix [p; (1 - p)%Qc] disc s cont)
      else None
    else Some (Tab s cont)
  else None.
