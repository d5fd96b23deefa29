(** Vocabulary for the sampling front end. *)
From Verif Require Import XNum Text Sampler_Model.
Local Open Scope nat_scope.

(** Relative value of group [g] (from 0) in sample [s]. *)
Definition rel_value (mean s : list xnum) (g : nat) : xnum := xdiv (nth g s NaN) (nth g mean NaN).

(** A sample without a negative relative value. *)
Definition good (mean s : list xnum) : Prop :=
  forall g, g < length mean -> xneg (rel_value mean s g) = false.
Definition goodb (mean s : list xnum) : bool :=
  forallb (fun g => negb (xneg (rel_value mean s g))) (seq 0 (length mean)).
Lemma goodb_good mean s : goodb mean s = true <-> good mean s.
Proof.
  unfold goodb, good. rewrite forallb_forall. split; intros H g Hg.
  - specialize (H g). rewrite in_seq in H. apply negb_true_iff. apply H. lia.
  - apply in_seq in Hg. rewrite H by lia. reflexivity.
Qed.

(** Row [g] of the table made of the samples [ss]. *)
Definition row_of (mean : list xnum) (ss : list (list xnum)) (g : nat) : nat * list xnum :=
  (S g, map (fun s => rel_value mean s g) ss).
Definition no_nan (r : nat * list xnum) : bool := forallb (fun x => negb (xisnan x)) (snd r).

(** Cell at row position [g] and column position [j]. *)
Definition cell (f : frame) (g j : nat) : xnum := nth j (snd (nth g (rows f) (0, []))) NaN.

(** Every row has one cell per column. *)
Definition shaped (f : frame) : Prop := Forall (fun r => length (snd r) = length (cols f)) (rows f).

Definition the_names : list text :=
  [str "normal"; str "lognormal"; str "uncorrelated"; str "uniform"; str "loguncorrelated"].

(** Regular data: finite samples, non-zero finite means. *)
Definition regular (mean : list xnum) (samples : list (list xnum)) : Prop :=
  (forall g, g < length mean -> exists m, nth g mean NaN = Fin m /\ m <> 0%Qc) /\
  (forall s g, In s samples -> g < length mean -> exists x, nth g s NaN = Fin x).

(** What each name means: whether the stored correlation is used, and the distribution. *)
Definition the_kinds : list (text * (bool * dist)) :=
  [(str "normal", (true, Normal)); (str "lognormal", (true, LogNormal)); (str "uniform", (true, Uniform));
   (str "uncorrelated", (false, Normal)); (str "loguncorrelated", (false, LogNormal))].
