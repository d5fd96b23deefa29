(** What becomes of a product, and of its distributions, in HDF5. *)
From Coq Require Import ZArith QArith Qcanon List Bool Arith String.
From Verif Require Import Num Neut_Model Law_Model Law_Spec Hdf_Model.
From Verif Require Cont_Model Cont_Spec Ang_Model Ang_Spec.
Import ListNotations.
Local Open Scope list_scope.
Local Open Scope nat_scope.

(** All the points of a spectrum: lines first. *)
Definition all_points (d : Cont_Model.dist) : list Cont_Model.point :=
  match d with Cont_Model.Tab _ l => l | Cont_Model.Disc l => l | Cont_Model.Mix _ a _ c => a ++ c end.

(** ** Fit to be stored *)
Definition fn_fine (f : fn) : Prop := length (fx f) = length (fy f).
Definition yield_fine (y : yield) : Prop := match y with Tabd f => fn_fine f | Poly _ => True end.
(** Fit for the file as in Cont_Spec.v; [any]: negative densities too. *)
Definition fit (any : bool) (d : Cont_Model.dist) : Prop :=
  match d with
  | Cont_Model.Tab _ l => l <> [] /\ (any = true \/ Cont_Spec.nonnegative l)
  | _ => Cont_Spec.fit d
  end.
Definition spectra_fine (any : bool) (bp it : list Z) (es : list Qc) (ds : list Cont_Model.dist) : Prop :=
  length bp = length it /\ length es = length ds /\ Forall (fit any) ds.
Definition angle_fine (a : angle) : Prop := length (fst a) = length (snd a) /\ Forall Ang_Spec.storable (snd a).
Definition energy_fine (e : energy) : Prop :=
  match e with
  | Photon _ _ _ | Level _ _ => True
  | Continuous bp it es ds => spectra_fine false bp it es ds
  | Maxwell f _ | Evaporation f _ => fn_fine f
  | Watt a b _ => fn_fine a /\ fn_fine b
  | Madland _ _ _ | General _ _ _ | Arbitrary _ _ => False
  end.
Definition cosine_fine (m : cosine) : Prop := match m with Lines l => Cont_Spec.nonnegative l | _ => True end.
Definition for_some {A} (P : A -> Prop) (o : option A) : Prop := match o with Some a => P a | None => True end.
(** Kalbach-Mann: a value of either parameter for each point of the spectrum.  Correlated:
    no spectrum of lines and continuum both; a cosine for each point. *)
Definition law_fine (d : law * option angle) : Prop :=
  match d with
  | (Uncorrelated e, a) => for_some energy_fine e /\ for_some angle_fine a
  | (Kalbach bp it es ds r s, _) => spectra_fine false bp it es ds /\
      Forall2 (fun d f => length (fy f) = length (all_points d)) ds r /\ Forall2 (fun d f => length (fy f) = length (all_points d)) ds s
  | (Correlated bp it es ds mus, _) => spectra_fine true bp it es ds /\
      Forall (fun d => forall w a i c, d <> Cont_Model.Mix w a i c) ds /\
      Forall2 (fun d m => length m = length (all_points d)) ds mus /\ Forall (Forall cosine_fine) mus
  | (NBody m n awr _, _) => (0 < m)%Qc /\ (0 < n)%Z /\ (0 < awr)%Qc
  end.
Definition product_fine (p : prod) : Prop :=
  (0 <= p_rate p)%Qc /\ yield_fine (p_yield p) /\ Forall law_fine (p_dist p) /\
  (p_app p = [] \/ length (p_dist p) <= length (p_app p)) /\ Forall fn_fine (p_app p).

(** ** What comes back *)
(** Schemes other than histogram come back as linear. *)
Definition kept_scheme (i i' : Cont_Model.scheme) : Prop :=
  (i = Cont_Model.Histogram /\ i' = Cont_Model.Histogram) \/ (i <> Cont_Model.Histogram /\ i' = Cont_Model.LinLin).
Definition kept_dist (d d' : Cont_Model.dist) : Prop :=
  match d, d' with
  | Cont_Model.Tab i l, Cont_Model.Tab i' l' => l' = l /\ kept_scheme i i'
  | Cont_Model.Disc l, Cont_Model.Disc l' => l' = l
  | Cont_Model.Mix _ a i c, Cont_Model.Mix w' a' i' c' => a' = a /\ c' = c /\ kept_scheme i i' /\ exists p, Cont_Spec.lines_weight a p /\ w' = [p; (1 - p)%Qc]
  | _, _ => False
  end.
(** An isotropic cosine comes back as a table. *)
Definition kept_cosine (m m' : cosine) : Prop :=
  match m, m' with
  | Iso, Cos i' l' => i' = Cont_Model.Histogram /\ l' = [(- (1), qc 1 2, 0)%Qc; (1, qc 1 2, 1)%Qc]
  | Lines l, Lines l' => l' = l
  | Cos i l, Cos i' l' => l' = l /\ kept_scheme i i'
  | _, _ => False
  end.
(** A parameter: the values [fy f], now against the energies of the spectrum. *)
Definition kept_parameter (d : Cont_Model.dist) (f f' : fn) : Prop :=
  fy f' = fy f /\ fx f' = map Cont_Model.px (all_points d) /\ fbp f' = [Z.of_nat (length (all_points d))] /\ fint f' = [2%Z].
Inductive Forall3 {A B C} (P : A -> B -> C -> Prop) : list A -> list B -> list C -> Prop :=
| F3_nil : Forall3 P [] [] []
| F3_cons a b c l m n : P a b c -> Forall3 P l m n -> Forall3 P (a :: l) (b :: m) (c :: n).
Definition kept_energy (e e' : energy) : Prop :=
  match e, e' with
  | Continuous bp it es ds, Continuous bp' it' es' ds' => bp' = bp /\ it' = it /\ es' = es /\ Forall2 kept_dist ds ds'
  | Continuous _ _ _ _, _ => False
  | e, e' => e' = e
  end.
Definition kept_angle (a a' : angle) : Prop := fst a' = fst a /\ Forall2 Ang_Spec.same_points (snd a) (snd a').
Definition both {A} (P : A -> A -> Prop) (o o' : option A) : Prop :=
  match o, o' with Some a, Some a' => P a a' | None, None => True | _, _ => False end.
(** Angles come back with uncorrelated distributions only. *)
Definition kept_law (d d' : law * option angle) : Prop :=
  match d, d' with
  | (Uncorrelated e, a), (Uncorrelated e', a') => both kept_energy e e' /\ both kept_angle a a'
  | (Kalbach bp it es ds r s, _), (Kalbach bp' it' es' ds' r' s', a') =>
      bp' = bp /\ it' = it /\ es' = es /\ Forall2 kept_dist ds ds' /\ Forall3 kept_parameter ds r r' /\ Forall3 kept_parameter ds s s' /\ a' = None
  | (Correlated bp it es ds mus, _), (Correlated bp' it' es' ds' mus', a') =>
      bp' = bp /\ it' = it /\ es' = es /\ Forall2 kept_dist ds ds' /\ Forall2 (Forall2 kept_cosine) mus mus' /\ a' = None
  | (NBody m n awr q, _), (d', a') => d' = NBody m n awr q /\ a' = None
  | _, _ => False
  end.
Definition kept_product (p p' : prod) : Prop :=
  p_neutron p' = p_neutron p /\ p_mode p' = p_mode p /\ p_rate p' = p_rate p /\ p_yield p' = p_yield p /\
  p_app p' = firstn (length (p_dist p)) (p_app p) /\ Forall2 kept_law (p_dist p) (p_dist p').

(** ** What comes back as it was *)
Definition plain_cosine (m : cosine) : Prop := match m with Iso => False | Lines _ => True | Cos i _ => Cont_Spec.plain i end.
Definition plain_parameter (d : Cont_Model.dist) (f : fn) : Prop := f = linear (map Cont_Model.px (all_points d)) (fy f).
Definition plain_energy (e : energy) : Prop := match e with Continuous _ _ _ ds => Forall Cont_Spec.plainly ds | _ => True end.
Definition plain_law (d : law * option angle) : Prop :=
  match d with
  | (Uncorrelated e, a) => for_some plain_energy e /\ for_some (fun a => Forall Ang_Spec.plainly (snd a)) a
  | (Kalbach _ _ _ ds r s, a) => Forall Cont_Spec.plainly ds /\ Forall2 plain_parameter ds r /\ Forall2 plain_parameter ds s /\ a = None
  | (Correlated _ _ _ ds mus, a) => Forall Cont_Spec.plainly ds /\ Forall (Forall plain_cosine) mus /\ a = None
  | (NBody _ _ _ _, a) => a = None
  end.
Definition plain_product (p : prod) : Prop := Forall plain_law (p_dist p) /\ length (p_app p) <= length (p_dist p).

(** ** From an ACE table *)
(** A spectrum that is not empty, without negative densities ([any]: with them too), whose
    lines have a cumulative probability that is one. *)
Definition sp_stored (any : bool) (s : spectrum) : Prop :=
  sp_points s <> [] /\ (any = true \/ Law_Spec.nonnegative (sp_cont s)) /\
  (sp_lines s <> [] -> sp_cont s <> [] -> Law_Spec.nonnegative (sp_cont s) /\ exists w, Cont_Spec.lines_weight (sp_lines s) w /\ (0 <= w <= 1)%Qc).
Definition told_stored (t : told) : Prop :=
  match t with
  | TContinuous _ out => Forall (sp_stored false) out
  | TKalbach _ out => Forall (fun s => sp_stored false (fst s)) out
  | TCorrelated _ out => Forall (fun s => sp_stored true (fst s) /\ (sp_lines (fst s) = [] \/ sp_cont (fst s) = [])) out
  | _ => True
  end.
