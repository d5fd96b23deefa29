(** What a table in ACE form says about photons, and what is read of it. *)
From Coq Require Import ZArith QArith Qcanon List Bool Arith.
From Verif Require Import Num Neut_Model Neut_Spec Nubar_Spec.
From Verif Require AceEdit_Model.
Import ListNotations.
Local Open Scope Z_scope.

(** How many photons: a number per reaction as a function of the energy (MFTYPE 12 or 16),
    or a cross section for making one, from place [first] of the grid on (MFTYPE 13). *)
Inductive source := Factor (kind : Z) (t : fn) | Production (first : nat) (vs : list Qc).
(** A photon: its MT (thousandfold that of the reaction), its source, the locators of its
    energy law and of its angles. *)
Record glow := mkGlow { gl_mt : Z; gl_source : source; gl_law : Z; gl_angle : Z }.
(** MT of the reaction. *)
Definition gl_from (h : glow) : Z := gl_mt h / 1000.
Definition glow_words (h : glow) : list Qc :=
  match gl_source h with
  | Factor k t => qz k :: qz (gl_from h) :: table_words t
  | Production f vs => qz 13 :: qz (Z.of_nat f + 1) :: qz (Z.of_nat (length vs)) :: vs
  end.
(** Blocks LSIGP, SIGP, LANDP, LDLWP for photon [i]. *)
Definition glows (a : ace) (c : content) (i : nat) (h : glow) : Prop :=
  match gl_source h with
  | Factor k t => (k = 12 \/ k = 16) /\ table_fine t
  | Production f vs => (f + length vs <= length (c_grid c))%nat
  end /\
  (exists loca, kept a c (jxs a 14 + Z.of_nat i) [qz loca] /\ kept a c (jxs a 15 + loca - 1) (glow_words h)) /\
  kept a c (jxs a 16 + Z.of_nat i) [qz (gl_angle h)] /\ kept a c (jxs a 18 + Z.of_nat i) [qz (gl_law h)].
(** Block MTRP and the rest. *)
Definition shines (a : ace) (c : content) (hs : list glow) : Prop :=
  nxs a 6 = Z.of_nat (length hs) /\ kept a c (jxs a 13) (map (fun h => qz (gl_mt h)) hs) /\
  forall i h, nth_error hs i = Some h -> glows a c i h.

(** [t] is the number of photons per reaction, [sigma] being the cross section of the
    reaction. *)
Definition number_of (c : content) (sigma : Qc -> Qc) (s : source) (t : fn) : Prop :=
  match s with
  | Factor _ t0 => t = in_ev t0
  | Production f vs =>
      fx t = energies c f (length vs) /\ fbp t = [Z.of_nat (length vs)] /\ fint t = [2] /\ length (fy t) = length vs /\
      forall j, (j < length vs)%nat -> let s := sigma (nth j (fx t) 0%Qc) in
        ((0 < s)%Qc -> (nth j (fy t) 0 * s)%Qc = nth j vs 0%Qc) /\ (~ (0 < s)%Qc -> nth j (fy t) 0%Qc = 0%Qc)
  end.
(** [p] is what is read of [h]; [x] is XSS as it then was. *)
Definition seen {D A} (R : readers D A) (a : ace) (c : content) (x : list Qc) (sigma : Qc -> Qc) (h : glow) (p : @product D A) : Prop :=
  p_neutron p = false /\ p_mode p = Prompt /\ p_rate p = 0%Qc /\ p_app p = [] /\
  exists t d g, p_yield p = Tabd t /\ number_of c sigma (gl_source h) t /\ p_dist p = [(d, Some g)] /\
    dist_at R x (jxs a 19) (gl_law h) None = Some d /\ plain R d = true /\
    (gl_angle h = 0 -> exists e0 en, nth_error (fx t) 0 = Some e0 /\ nth_error (fx t) (length (fx t) - 1) = Some en /\ g = isotropic R e0 en) /\
    (gl_angle h <> 0 -> ang_at R x (jxs a 17) (gl_angle h) = Some g).
(** Photons among the products. *)
Definition photons_of {D A} (ps : list (@product D A)) : list (@product D A) := filter (fun p => negb (p_neutron p)) ps.
(** Those of reaction [m]. *)
Definition from (m : Z) (hs : list glow) : list glow := filter (fun h => gl_from h =? m) hs.
