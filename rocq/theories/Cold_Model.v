(** Elastic scattering at 0 K.
    Source: /repo/ASAPy/data/neutron.py:32, 284-375 (add_elastic_0K_from_endf), 740-760 (cross
            sections of from_endf); /repo/ASAPy/data/function.py:592-640 (ResonancesWithBackground);
            /repo/ASAPy/data/resonance.py:20-120, 1064-1071 (kinds of ranges).
    Simplifications: exact rationals; [None] is an exception; a range of resonances is its
    kind, its limits and the columns of its table that matter; [np.logspace], the cross
    sections reconstructed from resonances and the background are arguments; an exception
    leaves the nuclide as it was. *)
From Coq Require Import ZArith QArith Qcanon List Bool String.
From Verif Require Import Num Neut_Model Hdf_Model Nuc_Model Temp_Model.
From Verif Require Sab_Model Thin_Model Linz_Model.
Import ListNotations.
Local Open Scope string_scope.
Local Open Scope list_scope.
Local Notation "'do' x <- e ; f" := (match e with Some x => f | None => None end) (at level 200, x pattern, e at level 100, f at level 200).

(** The kinds of resonance.py:1064-1071 and [Unresolved]; [Breit] is single or multilevel
    Breit-Wigner, with energies and total widths, [Reich] is Reich-Moore with energies and
    neutron, capture and both fission widths, [Radius] is [ResonanceRange] itself (only a
    scattering radius, no table). *)
Inductive kind :=
| Breit (rows : list (Qc * Qc))
| Reich (rows : list (Qc * (Qc * Qc * (Qc * Qc))))
| Limited
| Unresolved
| Radius.
Record band := mkBand { b_lo : Qc; b_hi : Qc; b_kind : kind }.
(** [isinstance(r, _RESOLVED)] (resonance.py:1070). *)
Definition resolved (r : band) : bool := match b_kind r with Breit _ | Reich _ | Limited => true | _ => false end.

(** ** Cross sections with resonances *)
Section Resonant.
(** [r.reconstruct(x)[mt]] for a number and for an array. *)
Context (recon : band -> Qc -> Qc).
Context (recons : band -> list Qc -> list Qc).
(** function.py:607, 616. *)
Definition within (r : band) (x : Qc) : bool := qleb (b_lo r) x && qleb x (b_hi r).
(** function.py:597-620 with a number; [bg] is the background there. *)
Definition at_energy (rs : list band) (bg : Qc) (x : Qc) : Qc :=
  fold_left (fun v r => if resolved r then if within r x then (v + recon r x)%Qc else v else v) rs bg.
(** [xs[within] += ys] (function.py:611); a wrong number of values raises (numpy would repeat a single one). *)
Fixpoint add_where (mask : list bool) (v ys : list Qc) : option (list Qc) :=
  match mask, v with
  | [], [] => match ys with [] => Some [] | _ => None end
  | true :: m, a :: v' => match ys with y :: ys' => option_map (cons (a + y)%Qc) (add_where m v' ys') | [] => None end
  | false :: m, a :: v' => option_map (cons a) (add_where m v' ys)
  | _, _ => None
  end.
(** function.py:597-620 with an array; [bgs] is the background there. *)
Fixpoint at_energies (rs : list band) (bgs xs : list Qc) : option (list Qc) :=
  match rs with
  | [] => Some bgs
  | r :: rs' =>
      if resolved r then
        do v <- add_where (map (within r) xs) bgs (recons r (filter (within r) xs));
        at_energies rs' v xs
      else at_energies rs' bgs xs
  end.
(** neutron.py:740-760: the elastic cross section of an evaluation whose resonances are
    [rs]; without any, [None]: TypeError. *)
Definition elastic_of (rs : option (list band)) (bg : Qc -> Qc) : option (Qc -> Qc) :=
  do l <- rs;
  Some (if existsb resolved l then (fun x => at_energy l (bg x) x) else bg).
End Resonant.

(** ** The grid *)
Section Grid.
(** [_RESONANCE_ENERGY_GRID] (neutron.py:32) and neutron.py:357. *)
Context (fs : list Qc).
Context (logs : Qc -> Qc -> list Qc).

(** neutron.py:319-327: energies and widths; [None]: TypeError or AttributeError. *)
Definition peaks (k : kind) : option (list (Qc * Qc)) :=
  match k with
  | Breit rows => Some rows
  | Reich rows => Some (map (fun r => let '(e, (n, c, (a, b))) := r in (e, n + c + qabs a + qabs b)%Qc) rows)
  | _ => None
  end.
(** neutron.py:330-333. *)
Definition in_range (r : band) (l : list (Qc * Qc)) : list (Qc * Qc) :=
  filter (fun p => qltb (b_lo r) (fst p) && qltb (fst p) (b_hi r)) l.
(** [(e_peak[1:] + e_peak[:-1])/2] (neutron.py:338). *)
Fixpoint between (es : list Qc) : list Qc :=
  match es with a :: ((b :: _) as r) => ((b + a) / qz 2)%Qc :: between r | _ => [] end.
(** neutron.py:337-338. *)
Definition mids (r : band) (l : list (Qc * Qc)) : list Qc := b_lo r :: between (map fst l) ++ [b_hi r].
(** neutron.py:347-350. *)
Definition around (e g lower upper : Qc) : list Qc :=
  rev (filter (fun p => qltb lower p) (map (fun f => e - g * f)%Qc fs)) ++ filter (fun p => qltb p upper) (map (fun f => e + g * f)%Qc (tl fs)).
(** neutron.py:344-350. *)
Fixpoint clusters (l : list (Qc * Qc)) (ms : list Qc) : list (list Qc) :=
  match l, ms with
  | (e, g) :: l', a :: ((b :: _) as ms') => around e g a b :: clusters l' ms'
  | _, _ => []
  end.
(** neutron.py:319-358; [np.concatenate] of nothing raises. *)
Definition energies (r : band) : option (list Qc) :=
  do l <- peaks (b_kind r);
  let l := in_range r l in
  match clusters l (mids r l) with
  | [] => None
  | cs => Some (union1d (logs (b_lo r) (b_hi r)) (concat cs))
  end.

(** ** The cross section *)
(** The default tolerance of grid.py:4 and grid.py:61. *)
Definition tolerance : Qc := qc 1 1000.
(** neutron.py:361-362, 370-371. *)
Definition tabulate (fuel : nat) (f : Qc -> Qc) (es : list Qc) : option (list Qc * list Qc) :=
  do o <- Linz_Model.linearize fuel f tolerance es;
  Some (Thin_Model.thin tolerance (map fst o) (map snd o)).
(** neutron.py:310-367. *)
Fixpoint over_ranges (fuel : nat) (f : Qc -> Qc) (rs : list band) (x y : list Qc) : option (list Qc * list Qc) :=
  match rs with
  | [] => Some (x, y)
  | r :: rs' =>
      match b_kind r with
      | Unresolved => over_ranges fuel f rs' x y
      | _ =>
          do es <- energies r;
          do (xi, yi) <- tabulate fuel f es;
          over_ranges fuel f rs' (x ++ xi) (y ++ yi)
      end
  end.
(** neutron.py:303-375, [rs] and [bg] being what the evaluation has; that there are no
    resonances (neutron.py:368-371) cannot be, as [from_endf] fails then. *)
Definition add_elastic_0K (fuel : nat) (recon : band -> Qc -> Qc) (overwrite : bool) (rs : option (list band)) (bg : Qc -> Qc) (self : nuclide) : option nuclide :=
  if (match look "0K" (d_energy self) with Some _ => true | None => false end) && negb overwrite then None
  else
    do f <- elastic_of recon rs bg;
    do l <- rs;
    do (x, y) <- over_ranges fuel f l [] [];
    do r <- reaction_at (d_rx self) 2%Z;
    Some (mkNuclide (d_endf self) (d_name self) (d_z self) (d_a self) (d_m self) (d_awr self) (d_kts self)
            (Sab_Model.set_at "0K" x (d_energy self)) (assign 2%Z (put_xs "0K" (Table (linear x y) None) r) (d_rx self)) (d_urr self)).
End Grid.
