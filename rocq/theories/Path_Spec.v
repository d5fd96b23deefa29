(** Places in a file system without links, and command lines of the covariance generator as
    a user writes them. *)
From Verif Require Import Num Text Dec PyNum Cli_Model Cli_Spec Path_Model.
From Coq Require Import ZArith QArith.Qcanon.
Local Open Scope nat_scope.
Local Open Scope list_scope.

(** One step along a path; a place is the list of names from the root. *)
Definition walk (at_ : list text) (c : text) : list text :=
  if eqt c [] || eqt c (str ".") then at_ else if eqt c (str "..") then removelast at_ else at_ ++ [c].
Definition absolute (p : text) : Prop := exists r, p = "/"%char :: r.
(** Where [p] leads from the place [here]. *)
Definition leads (here : list text) (p : text) : list text :=
  fold_left walk (split p) (if isabs p then [] else here).
Definition place (cwd p : text) : list text := leads (leads [] cwd) p.
(** A name of a file or directory. *)
Definition plain_name (c : text) : Prop := c <> [] /\ ~ In "/"%char c /\ c <> str "." /\ c <> str "..".
Definition normal (p : text) : Prop :=
  exists n cs, (n = 1 \/ n = 2) /\ p = repeat "/"%char n ++ joined cs /\ Forall plain_name cs.

(** The options of the generator. *)
Definition cov_options : list text :=
  map str ["-h"; "--help"; "-energy_bin_structure"; "-output_path"; "-output_store"; "-njoy_spectrum_weighting";
           "-mts"; "-temperature"; "-njoy_exec"; "-boxer_exec"]%string.
Definition cspells := spells_of cov_options.
Inductive citem :=
| File (t : text) | Bins (u t : text) | OutPath (u t : text) | OutStore (u t : text) | Weight (u : text) (z : Z)
| CMts (u : text) (l : list Z) | Temp (u : text) (z : Z) | Njoy (u t : text) | Boxer (u t : text).
Definition csays (i : citem) : list text :=
  match i with
  | File t => [t]
  | Bins u t | OutPath u t | OutStore u t | Njoy u t | Boxer u t => [u; t]
  | Weight u z | Temp u z => [u; decZ z]
  | CMts u l => u :: map decZ l
  end.
Definition cproper (i : citem) : Prop :=
  match i with
  | File t => bare t
  | Bins u t => cspells u (str "-energy_bin_structure") /\
      In t (map str ["SCALE_3"; "SCALE_44"; "SCALE_56"; "SCALE_238"; "SCALE_252"]%string)
  | OutPath u t => cspells u (str "-output_path") /\ bare t
  | OutStore u t => cspells u (str "-output_store") /\ bare t
  | Weight u z => cspells u (str "-njoy_spectrum_weighting") /\ (2 <= z <= 12)%Z
  | CMts u l => cspells u (str "-mts") /\ l <> []
  | Temp u z => cspells u (str "-temperature")
  | Njoy u t => cspells u (str "-njoy_exec") /\ bare t
  | Boxer u t => cspells u (str "-boxer_exec") /\ bare t
  end.
(** The file does not follow the reactions. *)
Fixpoint capart (l : list citem) : Prop :=
  match l with
  | CMts _ _ :: ((File _ :: _) as r) => False
  | _ :: r => capart r
  | [] => True
  end.
Definition files (l : list citem) : list text := flat_map (fun i => match i with File t => [t] | _ => [] end) l.
(** What an option changes; [full] makes a path absolute. *)
Definition cchange (full : text -> text) (a : covargs) (i : citem) : covargs :=
  let '(mkCov e b p s w m t n x) := a in
  match i with
  | File _ => a
  | Bins _ v => mkCov e v p s w m t n x
  | OutPath _ [] => mkCov e b (str "./") s w m t n x
  | OutPath _ v => mkCov e b (full v) s w m t n x
  | OutStore _ v => mkCov e b p (Some v) w m t n x
  | Weight _ v => mkCov e b p s v m t n x
  | CMts _ v => mkCov e b p s w v t n x
  | Temp _ v => mkCov e b p s w m v n x
  | Njoy _ v => mkCov e b p s w m t v x
  | Boxer _ v => mkCov e b p s w m t n v
  end.
Definition cdefaults (endf : text) : covargs :=
  mkCov endf (str "SCALE_252") (str "./") None 6%Z [] 300%Z (str "njoy") (str "boxer2mat").

(** Boundaries from [a] up to [b]. *)
Fixpoint ascending (l : list Qc) : Prop :=
  match l with x :: ((y :: _) as r) => (x < y)%Qc /\ ascending r | _ => True end.
