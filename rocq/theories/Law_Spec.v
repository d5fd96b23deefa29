(** What an ACE table says about secondary energies and angles. *)
From Coq Require Import ZArith QArith Qcanon List Bool Arith.
From Verif Require Import Num Neut_Model Neut_Spec Nubar_Spec Law_Model.
From Verif Require Cont_Model Cont_Spec.
Import ListNotations.
Local Open Scope Z_scope.

Definition ev : Qc := qz 1000000.
Definition len {T} (l : list T) : Z := Z.of_nat (length l).
(** A spectrum in MeV: interpolation (1: histogram), lines (energy, probability, cumulative
    probability), then points (energy, density, cumulative probability). *)
Record spectrum := mkSp { sp_int : Z; sp_lines : list Cont_Model.point; sp_cont : list Cont_Model.point }.
Definition sp_points (s : spectrum) : list Cont_Model.point := sp_lines s ++ sp_cont s.
(** Its words, with further rows. *)
Definition sp_words (s : spectrum) (more : list (list Qc)) : list Qc :=
  qz (10 * len (sp_lines s) + sp_int s) :: qz (len (sp_points s)) ::
  map Cont_Model.px (sp_points s) ++ map Cont_Model.pp (sp_points s) ++ map Cont_Model.pc (sp_points s) ++ concat more.
(** Incident energies (MeV), with regions of interpolation. *)
Record incident := mkIn { in_bp : list Z; in_int : list Z; in_es : list Qc }.
Definition in_words (i : incident) (locs : list Z) : list Qc :=
  qz (len (in_bp i)) :: map qz (in_bp i) ++ map qz (in_int i) ++ qz (len (in_es i)) :: in_es i ++ map qz locs.
(** A cosine: none (isotropic) or a table with its scheme. *)
Definition cosines := option (Z * list Cont_Model.point).
(** The laws of the ACE format that are read. *)
Inductive told :=
| TPhoton (primary : Z) (e : Qc)
| TLevel (threshold ratio : Qc)
| TContinuous (i : incident) (out : list spectrum)
| TMaxwell (theta : fn) (u : Qc)
| TEvaporation (theta : fn) (u : Qc)
| TWatt (a b : fn) (u : Qc)
| TKalbach (i : incident) (out : list (spectrum * (list Qc * list Qc)))
| TCorrelated (i : incident) (out : list (spectrum * list cosines))
| TNBody (n : Z) (mass : Qc).
Definition numbered (t : told) (number : Z) : Prop :=
  match t with
  | TPhoton _ _ => number = 2
  | TLevel _ _ => number = 3 \/ number = 33
  | TContinuous _ _ => number = 4
  | TMaxwell _ _ => number = 7
  | TEvaporation _ _ => number = 9
  | TWatt _ _ _ => number = 11
  | TKalbach _ _ => number = 44
  | TCorrelated _ _ => number = 61
  | TNBody _ _ => number = 66
  end.
(** The data of a law stand at [p]; [l] is the start of the block, from which places are
    counted. *)
Definition cosine_stands (x : list Qc) (l : Z) (lc : Z) (m : cosines) : Prop :=
  match m with
  | None => lc <= 0
  | Some (i, pts) => 0 < lc /\ stands x (l + lc - 1) (qz i :: qz (len pts) :: map Cont_Model.px pts ++ map Cont_Model.pp pts ++ map Cont_Model.pc pts)
  end.
Definition data_stands (x : list Qc) (l p : Z) (t : told) : Prop :=
  match t with
  | TPhoton primary e => stands x p [qz primary; e]
  | TLevel threshold ratio => stands x p [threshold; ratio]
  | TContinuous i out => exists locs, length locs = length (in_es i) /\ stands x p (in_words i locs) /\
      Forall2 (fun k s => stands x (l + k - 1) (sp_words s [])) locs out
  | TMaxwell theta u | TEvaporation theta u => stands x p (table_words theta ++ [u])
  | TWatt a b u => stands x p (table_words a ++ table_words b ++ [u])
  | TKalbach i out => exists locs, length locs = length (in_es i) /\ stands x p (in_words i locs) /\
      Forall2 (fun k s => stands x (l + k - 1) (sp_words (fst s) [fst (snd s); snd (snd s)])) locs out
  | TCorrelated i out => exists locs, length locs = length (in_es i) /\ stands x p (in_words i locs) /\
      Forall2 (fun k s => exists lcs, stands x (l + k - 1) (sp_words (fst s) [map qz lcs]) /\ Forall2 (cosine_stands x l) lcs (snd s)) locs out
  | TNBody n mass => stands x p [qz n; mass]
  end.
(** Entry [start] of the block at [l]: the place of the next one, the number of the law, the
    place of its data. *)
Definition law_stands (x : list Qc) (l start : Z) (t : told) : Prop :=
  exists next number place, stands x (l + start - 1) [next; qz number; qz place] /\ numbered t number /\ data_stands x l (l + place - 1) t.

(** Fit to be read. *)
Definition nonnegative (l : list Cont_Model.point) : Prop := forall t, In t l -> (0 <= Cont_Model.pp t)%Qc.
Definition sp_fine (s : spectrum) : Prop := 0 <= sp_int s < 10 /\ nonnegative (sp_lines s).
Definition in_fine (i : incident) : Prop := length (in_int i) = length (in_bp i).
Definition law_fine (awr : Qc) (t : told) : Prop :=
  match t with
  | TPhoton _ _ | TLevel _ _ => True
  | TContinuous i out => in_fine i /\ forall s, In s out -> sp_fine s /\ nonnegative (sp_cont s)
  | TMaxwell theta _ | TEvaporation theta _ => table_fine theta
  | TWatt a b _ => table_fine a /\ table_fine b
  | TKalbach i out => in_fine i /\ forall s, In s out -> sp_fine (fst s) /\ length (fst (snd s)) = length (sp_points (fst s)) /\ length (snd (snd s)) = length (sp_points (fst s))
  | TCorrelated i out => in_fine i /\ forall s, In s out -> sp_fine (fst s) /\ length (snd s) = length (sp_points (fst s)) /\
      forall k pts, In (Some (k, pts)) (snd s) -> 1 <= k <= 5 /\ nonnegative pts
  | TNBody n mass => 0 < n /\ (0 < mass)%Qc /\ (0 < awr)%Qc
  end.

(** The same in eV. *)
Definition regions_of (i : incident) (bp it : list Z) : Prop :=
  (in_bp i = [] /\ bp = [len (in_es i)] /\ it = [2]) \/ (in_bp i <> [] /\ bp = in_bp i /\ it = in_int i).
Definition energies_of (i : incident) (es : list Qc) : Prop := es = map (fun e => e * ev)%Qc (in_es i).
Definition spectrum_read (s : spectrum) (d : Cont_Model.dist) : Prop :=
  Cont_Spec.ace_dist ev (if sp_int s =? 1 then Cont_Model.Histogram else Cont_Model.LinLin) (sp_lines s) (sp_cont s) d.
(** [f'] is [f] of the energy in eV, ordinates times [k]. *)
Definition same_fn (k : Qc) (f f' : fn) : Prop :=
  fx f' = fx (in_ev f) /\ fbp f' = fbp (in_ev f) /\ fint f' = fint (in_ev f) /\ fy f' = map (fun y => y * k)%Qc (fy f).
(** The values [v] at the energies of a spectrum, as a linear function of the energy in
    eV. *)
Definition along (s : spectrum) (v : list Qc) (f : fn) : Prop :=
  fx f = map (fun t => Cont_Model.px t * ev)%Qc (sp_points s) /\ fy f = v /\ fbp f = [len (sp_points s)] /\ fint f = [2].
Definition scheme_number (i : Cont_Model.scheme) : Z :=
  match i with Cont_Model.Histogram => 1 | Cont_Model.LinLin => 2 | Cont_Model.LinLog => 3 | Cont_Model.LogLin => 4 | Cont_Model.LogLog => 5 end.
Definition cosine_read (m : cosines) (c : cosine) : Prop :=
  match m, c with
  | None, Iso => True
  | Some (k, pts), Cos i l => k = scheme_number i /\ l = pts
  | _, _ => False
  end.
Definition law_read (awr : Qc) (q : option Qc) (t : told) (d : law) : Prop :=
  match t, d with
  | TPhoton primary e, Uncorrelated (Some (Photon primary' e' awr')) => primary' = primary /\ e' = (e * ev)%Qc /\ awr' = awr
  | TLevel th ra, Uncorrelated (Some (Level th' ra')) => th' = (th * ev)%Qc /\ ra' = ra
  | TContinuous i out, Uncorrelated (Some (Continuous bp it es ds)) => regions_of i bp it /\ energies_of i es /\ Forall2 spectrum_read out ds
  | TMaxwell f u, Uncorrelated (Some (Maxwell f' u')) | TEvaporation f u, Uncorrelated (Some (Evaporation f' u')) => same_fn ev f f' /\ u' = (u * ev)%Qc
  | TWatt a b u, Uncorrelated (Some (Watt a' b' u')) => same_fn ev a a' /\ same_fn (/ ev) b b' /\ u' = (u * ev)%Qc
  | TKalbach i out, Kalbach bp it es ds rs sl => regions_of i bp it /\ energies_of i es /\ Forall2 spectrum_read (map fst out) ds /\
      Forall2 (fun s f => along (fst s) (fst (snd s)) f) out rs /\ Forall2 (fun s f => along (fst s) (snd (snd s)) f) out sl
  | TCorrelated i out, Correlated bp it es ds mus => regions_of i bp it /\ energies_of i es /\ Forall2 spectrum_read (map fst out) ds /\
      Forall2 (fun s m => Forall2 cosine_read (snd s) m) out mus
  | TNBody n m, NBody m' n' awr' q' => m' = m /\ n' = n /\ awr' = awr /\ q = Some q'
  | _, _ => False
  end.

(** The probability under a continuous part: densities constant, or linear, between the
    points. *)
Fixpoint area (i : Cont_Model.scheme) (l : list Cont_Model.point) : Qc :=
  match l with
  | t :: ((u :: _) as r) =>
      ((Cont_Model.px u - Cont_Model.px t) * (match i with Cont_Model.Histogram => Cont_Model.pp t | _ => (Cont_Model.pp t + Cont_Model.pp u) / qz 2 end) + area i r)%Qc
  | _ => 0%Qc
  end.
(** The spectra of a law, in the file and read. *)
Definition spectra_told (t : told) : list spectrum :=
  match t with TContinuous _ out => out | TKalbach _ out => map fst out | TCorrelated _ out => map fst out | _ => [] end.
Definition spectra_of (d : law) : list Cont_Model.dist :=
  match d with Uncorrelated (Some (Continuous _ _ _ ds)) => ds | Kalbach _ _ _ ds _ _ => ds | Correlated _ _ _ ds _ => ds | _ => [] end.
(** A continuous part with its scheme. *)
Definition continuous_in (d : Cont_Model.dist) (i : Cont_Model.scheme) (l : list Cont_Model.point) : Prop :=
  d = Cont_Model.Tab i l \/ exists w a, d = Cont_Model.Mix w a i l.
