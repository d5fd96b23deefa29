(** C65: neutrons read from a table in ACE form: how many, from which precursors, how
    distributed. *)
From Coq Require Import ZArith QArith Qcanon List Bool Arith Lia.
From Verif Require Import Num Neut_Model Neut_Spec NeutFinal_Proofs NeutRun_Proofs Nubar_Spec Nubar_Proofs.
From Verif Require AceEdit_Model.
Import ListNotations.
Local Open Scope Z_scope.

(** Fission: the neutrons that are not delayed have the number of the table, as a function
    of the energy in eV.  One number and no delayed neutrons: it counts all of them.  Two:
    that of the prompt ones is the first product, that of all is kept aside. *)
Theorem C65_fission : forall D A (R : readers D A) a c n x i h f, says a c -> apart a c -> listed_once c -> from_ace R a = Some (n, x) ->
  nth_error (c_channels c) i = Some h -> fissions (c_mt h) -> c_ty h = 19 -> emits a i -> tells a c f ->
  exists ps ds y, products_of n (c_mt h) ps ds /\
    match fi_nu f with
    | One nu => first_neutron ps (match fi_delayed f with None => Total | Some _ => Prompt end) y /\ same_nu nu y /\ ds = []
    | Both p t => first_neutron ps Prompt y /\ same_nu p y /\ exists q z, ds = [q] /\ first_neutron ds Total z /\ same_nu t z
    end.
Proof.
  intros D A R a c n x i h f S P O OK E Fi Ty Em T. destruct (fission_in R a c n x S P O OK i h f E Fi Ty Em T) as (ps & ds & y & dl & PO & [_ H1] & H2 & _). exists ps, ds, y. split; [exact PO|].
  destruct (fi_nu f); [tauto|]. destruct H2 as (H2 & z & Sz & ->). split; [exact H1|]. split; [exact H2|]. exists (with_yield Total z), z. split; [reflexivity|]. split; [|exact Sz]. exists (with_yield Total z), []. repeat split.
Qed.
Print Assumptions C65_fission.
(** Delayed neutrons: the groups in their order, with decay constants in 1/s; where the
    probabilities do not depend on the energy, each gets its share of the number. *)
Theorem C65_delayed : forall D A (R : readers D A) a c n x i h f d pr ps ds, says a c -> apart a c -> listed_once c -> from_ace R a = Some (n, x) ->
  nth_error (c_channels c) i = Some h -> fissions (c_mt h) -> c_ty h = 19 -> emits a i -> tells a c f -> fi_delayed f = Some d ->
  constant (dl_groups d) pr -> (0 < sum pr)%Qc -> products_of n (c_mt h) ps ds ->
  Forall2 (fun g q => p_rate q = (fst (fst g) * qz 100000000)%Qc /\
      p_yield q = Tabd (mkFn (fx (in_ev (dl_nu d))) (map (fun v => v * snd g / sum pr)%Qc (fy (dl_nu d))) (fbp (in_ev (dl_nu d))) (fint (in_ev (dl_nu d)))))
    (combine (dl_groups d) pr) (delayed_of ps).
Proof.
  intros D A R a c n x i h f d pr ps ds S P O OK E Fi Ty Em T Ed C Pos (r & L & <- & <-). destruct (fission_in R a c n x S P O OK i h f E Fi Ty Em T) as (ps & ds & y & dl & (r' & L' & <- & <-) & _ & _ & Dl & Dr).
  rewrite L in L'. inversion L'; subst r'. rewrite Dl. rewrite Ed in Dr. pose proof (constant_groups R d pr dl C Dr Pos) as F. clear - F. induction F as [|g q gs qs H F IH]; constructor; [tauto|exact IH].
Qed.
Print Assumptions C65_delayed.
(** At each energy of the table they add up to the number of delayed neutrons. *)
Theorem C65_delayed_sum : forall D A (R : readers D A) a c n x i h f d pr ps ds j v, says a c -> apart a c -> listed_once c -> from_ace R a = Some (n, x) ->
  nth_error (c_channels c) i = Some h -> fissions (c_mt h) -> c_ty h = 19 -> emits a i -> tells a c f -> fi_delayed f = Some d ->
  constant (dl_groups d) pr -> (0 < sum pr)%Qc -> products_of n (c_mt h) ps ds -> nth_error (fy (dl_nu d)) j = Some v ->
  sum (map (fun q => match p_yield q with Tabd t => nth j (fy t) 0%Qc | Poly _ => 0%Qc end) (delayed_of ps)) = v.
Proof.
  intros D A R a c n x i h f d pr ps ds j v S P O OK E Fi Ty Em T Ed C Pos PO Ej. pose proof (C65_delayed D A R a c n x i h f d pr ps ds S P O OK E Fi Ty Em T Ed C Pos PO) as F.
  apply (delayed_sum (dl_groups d) pr _ (dl_nu d) (sum pr) j v); auto.
  - clear - F. induction F as [|g q gs qs H F IH]; constructor; [|exact IH]. destruct H as [_ H]. eauto.
  - clear - C. unfold constant in C. induction C; cbn [length]; congruence.
Qed.
Print Assumptions C65_delayed_sum.
Theorem C65_no_delayed : forall D A (R : readers D A) a c n x i h f ps ds, says a c -> apart a c -> listed_once c -> from_ace R a = Some (n, x) ->
  nth_error (c_channels c) i = Some h -> fissions (c_mt h) -> c_ty h = 19 -> emits a i -> tells a c f -> fi_delayed f = None -> products_of n (c_mt h) ps ds -> delayed_of ps = [].
Proof.
  intros D A R a c n x i h f ps ds S P O OK E Fi Ty Em T Ed (r & L & <- & <-). destruct (fission_in R a c n x S P O OK i h f E Fi Ty Em T) as (ps & ds & y & dl & (r' & L' & <- & <-) & _ & _ & Dl & Dr).
  rewrite L in L'. inversion L'; subst r'. rewrite Dl. rewrite Ed in Dr. exact Dr.
Qed.
Print Assumptions C65_no_delayed.
(** Other reactions: the multiplicity of the table, a number up to 100 or the place of a
    function; no delayed neutrons. *)
Theorem C65_multiplicity : forall D A (R : readers D A) a c n x i h, says a c -> apart a c -> listed_once c -> from_ace R a = Some (n, x) ->
  nth_error (c_channels c) i = Some h -> ~ ignored (c_mt h) -> c_ty h <> 19 -> emits a i ->
  exists ps y, products_of n (c_mt h) ps [] /\ first_neutron ps Prompt y /\ delayed_of ps = [] /\
    (Z.abs (c_ty h) <= 100 -> y = Poly [qz (Z.abs (c_ty h))]) /\
    (forall t, 100 < Z.abs (c_ty h) -> table_fine t -> kept a c (jxs a 11 + Z.abs (c_ty h) - 101) (table_words t) -> y = Tabd (in_ev t)).
Proof.
  intros D A R a c n x i h S P O OK E Ig Ty Em. destruct (emitted_in R a c n x S P O OK i h E Ig Ty Em) as (ps & y & H1 & [_ H2] & H3). eauto.
Qed.
Print Assumptions C65_multiplicity.
(** Reactions beyond the first NXS[5] emit no neutrons. *)
Theorem C65_silent : forall D A (R : readers D A) a c n x i h, says a c -> apart a c -> listed_once c -> from_ace R a = Some (n, x) ->
  nth_error (c_channels c) i = Some h -> ~ ignored (c_mt h) -> ~ emits a i -> exists ps, products_of n (c_mt h) ps [] /\ forall p, In p ps -> p_neutron p = false.
Proof. intros D A R a c n x i h S P O OK. exact (silent R a c n x S P O OK i h). Qed.
Print Assumptions C65_silent.
(** Elastic scattering emits one neutron, of the distribution the table has. *)
Theorem C65_elastic : forall D A (R : readers D A) a c n x loc, says a c -> apart a c -> listed_once c -> from_ace R a = Some (n, x) -> 0 <= nxs a 5 -> kept a c (jxs a 8) [qz loc] ->
  exists x' p ps, partly a c x' /\ products_of n 2 (p :: ps) [] /\
  p_neutron p = true /\ p_mode p = Prompt /\ p_rate p = 0%Qc /\ p_yield p = Poly [1%Qc] /\ p_app p = [] /\ (forall q, In q ps -> p_neutron q = false) /\
  (loc <= 0 -> p_dist p = [(elastic_dist R, None)]) /\ (0 < loc -> exists g, ang_at R x' (jxs a 9) loc = Some g /\ p_dist p = [(elastic_dist R, Some g)]).
Proof. intros D A R a c n x loc S P O OK. exact (elastic_in R a c n x S P O OK loc). Qed.
Print Assumptions C65_elastic.
(** Energies and angles: the laws of the chain, in its order, each with the function saying
    where it applies; the angles of the reaction go to every law.  What stands elsewhere in
    the table is at most changed where cross sections were negative. *)
Theorem C65_laws : forall D A (R : readers D A) a c n x i h lnw l loc, says a c -> apart a c -> listed_once c -> from_ace R a = Some (n, x) ->
  nth_error (c_channels c) i = Some h -> ~ ignored (c_mt h) -> (c_ty h = 19 -> fissions (c_mt h) /\ exists f, tells a c f) -> emits a i ->
  kept a c (jxs a 10 + Z.of_nat i) [qz lnw] -> chained a c lnw l -> kept a c (jxs a 8 + Z.of_nat i + 1) [qz loc] ->
  exists x' p ps ds, partly a c x' /\ products_of n (c_mt h) (p :: ps) ds /\ p_app p = map (fun e => in_ev (snd e)) l /\
    Forall2 (fun e d => dist_at R x' (jxs a 11) (fst e) (Some (c_q h * qz 1000000)%Qc) = Some (fst d)) l (p_dist p) /\
    (loc <= 0 -> forall d, In d (p_dist p) -> snd d = None) /\ (0 < loc -> exists g, ang_at R x' (jxs a 9) loc = Some g /\ forall d, In d (p_dist p) -> snd d = Some g).
Proof. intros D A R a c n x i h lnw l loc S P O OK. exact (laws_in R a c n x S P O OK i h lnw l loc). Qed.
Print Assumptions C65_laws.
(** What the editor gets as the number of neutrons: that of all neutrons, provided the table
    has it beside that of the prompt ones, as a function with at least two values. *)
Theorem C65_editor : forall D A (R : readers D A) a c n x i h f, says a c -> apart a c -> listed_once c -> from_ace R a = Some (n, x) ->
  nth_error (c_channels c) i = Some h -> c_mt h = 18 -> c_ty h = 19 -> emits a i -> tells a c f ->
  forall t, AceEdit_Model.nu (editor_table R n x) = Some t <->
    exists p z, fi_nu f = Both p (NuTable z) /\ (exists u v, In u (fy z) /\ In v (fy z) /\ u <> v) /\ AceEdit_Model.tx t = fx (in_ev z) /\ AceEdit_Model.ty t = fy z.
Proof. intros D A R a c n x i h f S P O OK. exact (nu_held R a c n x S P O OK i h f). Qed.
Print Assumptions C65_editor.
(** A table whose TYR says fission of a reaction that is none, or that has no NU block, is
    not read. *)
Theorem C65_fission_needs_nu : forall D A (R : readers D A) a c i h, says a c -> apart a c -> listed_once c -> nth_error (c_channels c) i = Some h -> ~ ignored (c_mt h) -> c_ty h = 19 -> emits a i ->
  ~ fissions (c_mt h) \/ jxs a 2 = 0 -> from_ace R a = None.
Proof.
  intros D A R a c i h S P O E Ig Ty Em W. destruct (from_ace R a) as [(n, x)|] eqn:OK; [|reflexivity]. destruct (no_nu_in R a c n x S P O OK i h E Ig Ty Em). tauto.
Qed.
Print Assumptions C65_fission_needs_nu.

(** ** A table *)
Definition ex_readers : readers unit unit := mkReaders unit unit (fun _ _ _ _ _ _ => 0%Qc) (fun _ _ _ _ => Some tt) (fun _ => true) tt (fun _ _ _ => Some tt) (fun _ _ => tt) (fun _ => None).
Definition flat (v w : Qc) : fn := mkFn [qz 1; qz 3] [v; w] [] [].
(** Fission, (n,2n), anything, (n,gamma). *)
Definition ex_c : content := mkContent [qz 1; qz 2; qz 3] [qz 10; qz 20; qz 30] [qz 1; qz 3; qz 6] [qz 5; qz (-6); qz 7]
  [mkChannel 18 (qz 200) 19 0 [qz 1; qz 1; qz 1]; mkChannel 16 (qz (-8)) (-2) 1 [qz 2; qz 3]; mkChannel 5 (qz 0) 128 0 [qz 4; qz 4; qz (-4)]; mkChannel 102 (qz 6) 0 0 [qz 9; qz 9; qz 9]].
Definition ex_at : Z := Z.of_nat (length (xss (lay ex_c))).
(** Number of neutrons: of the prompt ones 2 + E/10, of all of them from 5/2 to 3; of the
    delayed ones 1/10, of two groups, three times as many in the first. *)
Definition ex_nu : list Qc := qz (-4) :: nu_words (NuPoly [qz 2; qc 1 10]) ++ nu_words (NuTable (flat (qc 5 2) (qz 3))).
Definition ex_groups : list (Qc * fn) := [(qc 1 1000000000, flat (qc 3 5) (qc 3 5)); (qc 1 100000000, flat (qc 1 5) (qc 1 5))].
Definition ex_dlw : list Qc := (qz 0 :: qz 4 :: qz 0 :: table_words (flat 1 1)) ++ (qz 19 :: qz 4 :: qz 0 :: table_words (flat 1 0)) ++ (qz 0 :: qz 3 :: qz 0 :: table_words (flat 0 1)) ++ table_words (flat (qz 1) (qz 2)).
Definition ex_words (nu : list Qc) (groups : list (Qc * fn)) : list Qc :=
  [qz 0; qz 0; qz (-1); qz 1] ++ [qz 1; qz 10; qz 1] ++ ex_dlw ++ nu ++ qz 2 :: table_words (flat (qc 1 10) (qc 1 10)) ++ concat (map group_words groups) ++ [qz 1; qz 1].
Definition ex_nxs (i : nat) : Z := match i with 5%nat => 3 | 8%nat => 2 | _ => nxs (lay ex_c) i end.
(** Blocks at these places from the end of the cross sections on. *)
Definition ex_jxs (j2 j24 j25 j26 : Z) (i : nat) : Z :=
  match i with 8%nat => ex_at | 9%nat => ex_at + 4 | 10%nat => ex_at + 4 | 11%nat => ex_at + 7 | 2%nat => ex_at + j2 | 24%nat => ex_at + j24 | 25%nat => ex_at + j25 | 26%nat => ex_at + j26 | 27%nat => ex_at + j26 + 2 | _ => jxs (lay ex_c) i end.
Definition ex_a : ace := mkAce ex_nxs (ex_jxs 40 52 59 73) (xss (lay ex_c) ++ ex_words ex_nu ex_groups).
Definition ex_f : fission := mkFission (Both (NuPoly [qz 2; qc 1 10]) (NuTable (flat (qc 5 2) (qz 3)))) (Some (mkDelayed (flat (qc 1 10) (qc 1 10)) ex_groups)).
Lemma ex_consistent : consistent ex_c.
Proof. split; [cbn; auto|]. intros h [<-|[<-|[<-|[<-|[]]]]]; cbn; lia. Qed.
Lemma ex_once : listed_once ex_c.
Proof. unfold listed_once. cbn. repeat constructor; cbn; lia. Qed.
Lemma ex_hn i : (i = 3 \/ i = 4)%nat -> ex_nxs i = nxs (lay ex_c) i. Proof. intros [->| ->]; reflexivity. Qed.
Lemma ex_hj j2 j24 j25 j26 i : (i = 1 \/ 3 <= i <= 7)%nat -> ex_jxs j2 j24 j25 j26 i = jxs (lay ex_c) i.
Proof. intros H. assert (C : (i = 1 \/ i = 3 \/ i = 4 \/ i = 5 \/ i = 6 \/ i = 7)%nat) by lia. decompose [or] C; subst i; reflexivity. Qed.
Definition this_of (o : option Qc) : option Q := option_map this o.
Lemma at_place (w : list Qc) k l : (exists u v, w = u ++ l ++ v /\ length u = k) -> stands (xss (lay ex_c) ++ w) (ex_at + Z.of_nat k) l.
Proof. intros (u & v & -> & L). exists (xss (lay ex_c) ++ u), v. split; [now rewrite <- !app_assoc|]. rewrite app_length, L. unfold ex_at. lia. Qed.
Lemma cut (w l : list Qc) k : firstn (length l) (skipn k w) = l -> (k <= length w)%nat -> exists u v, w = u ++ l ++ v /\ length u = k.
Proof.
  intros E L. exists (firstn k w), (skipn (length l) (skipn k w)). split; [|now apply firstn_length_le]. rewrite <- E at 1. rewrite firstn_skipn. now rewrite firstn_skipn.
Qed.
Lemma ex_kept j2 j24 j25 j26 w k l : firstn (length l) (skipn k w) = l -> (k <= length w)%nat -> kept (mkAce ex_nxs (ex_jxs j2 j24 j25 j26) (xss (lay ex_c) ++ w)) ex_c (ex_at + Z.of_nat k) l.
Proof.
  intros E L. apply (put_kept ex_c ex_nxs (ex_jxs j2 j24 j25 j26) w ex_consistent (ex_hj j2 j24 j25 j26)); [unfold ex_at; lia|]. cbn [xss]. apply at_place, cut; auto.
Qed.
Lemma ex_says : says ex_a ex_c. Proof. apply (put_says ex_c _ _ _ ex_consistent ex_hn (ex_hj 40 52 59 73)). Qed.
Lemma ex_apart : apart ex_a ex_c. Proof. apply (put_apart ex_c _ _ _ ex_consistent (ex_hj 40 52 59 73)). Qed.
Lemma ex_tells : tells ex_a ex_c ex_f.
Proof.
  split.
  - discriminate.
  - cbn [ex_f fi_nu]. split; [discriminate|]. split; [split; reflexivity|]. exists 4. split; [lia|].
    split; [apply (ex_kept 40 52 59 73 _ 40); [reflexivity|cbn; lia]|]. split; [apply (ex_kept 40 52 59 73 _ 41); [reflexivity|cbn; lia]|apply (ex_kept 40 52 59 73 _ 45); [reflexivity|cbn; lia]].
  - cbn [ex_f fi_delayed]. split; [reflexivity|]. split; [reflexivity|]. split; [split; reflexivity|]. split.
    + intros g [<-|[<-|[]]]; repeat split; discriminate.
    + split; [apply (ex_kept 40 52 59 73 _ 53); [reflexivity|cbn; lia]|apply (ex_kept 40 52 59 73 _ 59); [reflexivity|cbn; lia]].
Qed.
Lemma is_some {T U} (o : option (T * U)) : (if o then true else false) = true -> exists n x, o = Some (n, x).
Proof. destruct o as [(n, x)|]; [eauto|discriminate]. Qed.
Lemma ex_read : exists n x, from_ace ex_readers ex_a = Some (n, x).
Proof. apply is_some. vm_compute. reflexivity. Qed.
Example C65_hypotheses_met : says ex_a ex_c /\ apart ex_a ex_c /\ listed_once ex_c /\ (exists n x, from_ace ex_readers ex_a = Some (n, x)) /\ tells ex_a ex_c ex_f /\ emits ex_a 0 /\
  nth_error (c_channels ex_c) 0 = Some (mkChannel 18 (qz 200) 19 0 [qz 1; qz 1; qz 1]) /\ fissions 18 /\ constant ex_groups [qc 3 5; qc 1 5] /\ (0 < sum [qc 3 5; qc 1 5])%Qc.
Proof.
  split; [exact ex_says|]. split; [exact ex_apart|]. split; [exact ex_once|]. split; [exact ex_read|]. split; [exact ex_tells|]. split; [reflexivity|]. split; [reflexivity|]. split; [unfold fissions; lia|].
  split; [|reflexivity]. repeat constructor; try discriminate; cbn [flat fy snd In]; intros v Hv; decompose [or] Hv; now subst.
Qed.
Example C65_multiplicity_hypotheses_met : emits ex_a 1 /\ emits ex_a 2 /\ ~ emits ex_a 3 /\ ~ ignored 16 /\ ~ ignored 5 /\ kept ex_a ex_c (jxs ex_a 11 + Z.abs 128 - 101) (table_words (flat (qz 1) (qz 2))).
Proof. repeat split; try (unfold emits, ignored; cbn; lia); apply (ex_kept 40 52 59 73 _ 34); reflexivity || (cbn; lia). Qed.
Example C65_laws_hypotheses_met : kept ex_a ex_c (jxs ex_a 8) [qz 0] /\ kept ex_a ex_c (jxs ex_a 10 + Z.of_nat 1) [qz 10] /\ chained ex_a ex_c 10 [(10, flat 1 0); (19, flat 0 1)] /\ kept ex_a ex_c (jxs ex_a 8 + Z.of_nat 1 + 1) [qz (-1)] /\
  kept ex_a ex_c (jxs ex_a 10 + Z.of_nat 2) [qz 1] /\ chained ex_a ex_c 1 [(1, flat 1 1)] /\ kept ex_a ex_c (jxs ex_a 8 + Z.of_nat 2 + 1) [qz 1].
Proof.
  assert (K : forall k l, firstn (length l) (skipn k (ex_words ex_nu ex_groups)) = l -> (k <= 75)%nat -> kept ex_a ex_c (ex_at + Z.of_nat k) l) by (intros k l E L; apply (ex_kept 40 52 59 73 _ k); [exact E|cbn; lia]).
  split; [apply (K 0%nat); [reflexivity|lia]|]. split; [apply (K 5%nat); [reflexivity|lia]|]. split.
  { apply ch_law with (next := 19); [lia|split; reflexivity|apply (K 16%nat); [reflexivity|lia]|apply (K 19%nat); [reflexivity|lia]|].
    apply ch_law with (next := 0); [lia|split; reflexivity|apply (K 25%nat); [reflexivity|lia]|apply (K 28%nat); [reflexivity|lia]|]. apply ch_end. lia. }
  split; [apply (K 2%nat); [reflexivity|lia]|]. split; [apply (K 6%nat); [reflexivity|lia]|]. split; [|apply (K 3%nat); [reflexivity|lia]].
  apply ch_law with (next := 0); [lia|split; reflexivity|apply (K 7%nat); [reflexivity|lia]|apply (K 10%nat); [reflexivity|lia]|]. apply ch_end. lia.
Qed.
(** The number of all neutrons reaches the editor. *)
Example C65_editor_example : exists n x, from_ace ex_readers ex_a = Some (n, x) /\ exists t, AceEdit_Model.nu (editor_table ex_readers n x) = Some t /\ AceEdit_Model.ty t = [qc 5 2; qz 3].
Proof.
  destruct ex_read as (n & x & E). exists n, x. split; [exact E|]. exists (AceEdit_Model.mkTab (fx (in_ev (flat (qc 5 2) (qz 3)))) [qc 5 2; qz 3]). split; [|reflexivity].
  apply (C65_editor _ _ ex_readers ex_a ex_c n x 0%nat _ ex_f ex_says ex_apart ex_once E eq_refl eq_refl eq_refl eq_refl ex_tells). exists (NuPoly [qz 2; qc 1 10]), (flat (qc 5 2) (qz 3)).
  split; [reflexivity|]. split; [|split; reflexivity]. exists (qc 5 2), (qz 3). cbn. split; [auto|]. split; [auto|]. discriminate.
Qed.
Example C65_fission_needs_nu_hypotheses_met : let a := mkAce ex_nxs (fun i => match i with 2%nat => 0 | _ => ex_jxs 40 52 59 73 i end) (xss ex_a) in says a ex_c /\ apart a ex_c /\ emits a 0 /\ jxs a 2 = 0.
Proof.
  cbv zeta. assert (H : forall i, (i = 1 \/ 3 <= i <= 7)%nat -> (fun i => match i with 2%nat => 0 | _ => ex_jxs 40 52 59 73 i end) i = jxs (lay ex_c) i) by (intros i H; rewrite <- (ex_hj 40 52 59 73 i H); do 3 (destruct i as [|i]; [lia || reflexivity|]); reflexivity).
  split; [exact (put_says ex_c ex_nxs _ _ ex_consistent ex_hn H)|]. split; [exact (put_apart ex_c ex_nxs _ _ ex_consistent H)|]. split; reflexivity.
Qed.

(** ** What does not hold *)
(** A number of all neutrons that does not depend on the energy is not seen by the editor:
    the label of the product does not say that it is tabulated. *)
Theorem C65_constant_nu_refuted : forall D A (R : readers D A) a c n x i h f p z v, says a c -> apart a c -> listed_once c -> from_ace R a = Some (n, x) ->
  nth_error (c_channels c) i = Some h -> c_mt h = 18 -> c_ty h = 19 -> emits a i -> tells a c f -> fi_nu f = Both p (NuTable z) -> (forall w, In w (fy z) -> w = v) ->
  AceEdit_Model.nu (editor_table R n x) = None.
Proof.
  intros D A R a c n x i h f p z v S P O OK E M Ty Em T F C. destruct (AceEdit_Model.nu (editor_table R n x)) as [t|] eqn:N; [|reflexivity].
  apply (C65_editor D A R a c n x i h f S P O OK E M Ty Em T) in N as (p' & z' & F' & (u & w & Iu & Iw & Ne) & _). rewrite F in F'. inversion F'; subst. exfalso. apply Ne. rewrite (C u Iu), (C w Iw). reflexivity.
Qed.
Print Assumptions C65_constant_nu_refuted.
(** Nor is the number of neutrons of a table that has one number only. *)
Theorem C65_one_nu_refuted : forall D A (R : readers D A) a c n x i h f nu, says a c -> apart a c -> listed_once c -> from_ace R a = Some (n, x) ->
  nth_error (c_channels c) i = Some h -> c_mt h = 18 -> c_ty h = 19 -> emits a i -> tells a c f -> fi_nu f = One nu -> AceEdit_Model.nu (editor_table R n x) = None.
Proof.
  intros D A R a c n x i h f nu S P O OK E M Ty Em T F. destruct (AceEdit_Model.nu (editor_table R n x)) as [t|] eqn:N; [|reflexivity].
  apply (C65_editor D A R a c n x i h f S P O OK E M Ty Em T) in N as (p' & z' & F' & _). congruence.
Qed.
Print Assumptions C65_one_nu_refuted.
(** Probabilities that depend on the energy in one group and not in another: only the
    constant ones are added up, all are divided.  Here, of 1/10 delayed neutrons per fission,
    1/5 are read. *)
Definition ex_mixed : list (Qc * fn) := [(qc 1 1000000000, flat (qc 1 2) (qc 1 2)); (qc 1 100000000, flat (qc 1 2) (qc 1 4))].
Definition ex_am : ace := mkAce ex_nxs (ex_jxs 40 52 59 73) (xss (lay ex_c) ++ ex_words ex_nu ex_mixed).
Definition ex_fm : fission := mkFission (Both (NuPoly [qz 2; qc 1 10]) (NuTable (flat (qc 5 2) (qz 3)))) (Some (mkDelayed (flat (qc 1 10) (qc 1 10)) ex_mixed)).
Theorem C65_mixed_groups_refuted : exists n x ps ds, says ex_am ex_c /\ apart ex_am ex_c /\ tells ex_am ex_c ex_fm /\ from_ace ex_readers ex_am = Some (n, x) /\ products_of n 18 ps ds /\
  sum (map (fun g => nth 0 (fy (snd g)) 0%Qc) ex_mixed) = 1%Qc /\
  map (fun q => match p_yield q with Tabd t => this (nth 0 (fy t) 0%Qc) | Poly _ => 0%Q end) (delayed_of ps) = [1 # 10; 1 # 10]%Q.
Proof.
  assert (T : tells ex_am ex_c ex_fm).
  { split.
    - discriminate.
    - cbn [ex_fm fi_nu]. split; [discriminate|]. split; [split; reflexivity|]. exists 4. split; [lia|].
      split; [apply (ex_kept 40 52 59 73 _ 40); [reflexivity|cbn; lia]|]. split; [apply (ex_kept 40 52 59 73 _ 41); [reflexivity|cbn; lia]|apply (ex_kept 40 52 59 73 _ 45); [reflexivity|cbn; lia]].
    - cbn [ex_fm fi_delayed]. split; [reflexivity|]. split; [reflexivity|]. split; [split; reflexivity|]. split.
      + intros g [<-|[<-|[]]]; repeat split; discriminate.
      + split; [apply (ex_kept 40 52 59 73 _ 53); [reflexivity|cbn; lia]|apply (ex_kept 40 52 59 73 _ 59); [reflexivity|cbn; lia]]. }
  destruct (from_ace ex_readers ex_am) as [(n, x)|] eqn:E; [|exfalso; revert E; vm_compute; discriminate].
  assert (K : exists r, AceEdit_Model.lookup 18 (n_reactions n) = Some r /\ map (fun q => match p_yield q with Tabd t => this (nth 0 (fy t) 0%Qc) | Poly _ => 0%Q end) (delayed_of (r_products r)) = [1 # 10; 1 # 10]%Q).
  { assert (C : option_map (fun nx => option_map (fun r => map (fun q => match p_yield q with Tabd t => this (nth 0 (fy t) 0%Qc) | Poly _ => 0%Q end) (delayed_of (r_products r))) (AceEdit_Model.lookup 18 (n_reactions (fst nx)))) (from_ace ex_readers ex_am) = Some (Some [1 # 10; 1 # 10]%Q)) by (vm_compute; reflexivity).
    rewrite E in C. cbn [option_map fst] in C. destruct (AceEdit_Model.lookup 18 (n_reactions n)) as [r|]; [|discriminate]. exists r. split; [reflexivity|]. cbn [option_map] in C. congruence. }
  destruct K as (r & L & M). exists n, x, (r_products r), (r_derived r). split; [apply (put_says ex_c _ _ _ ex_consistent ex_hn (ex_hj 40 52 59 73))|]. split; [apply (put_apart ex_c _ _ _ ex_consistent (ex_hj 40 52 59 73))|].
  split; [exact T|]. split; [reflexivity|]. split; [exists r; auto|]. split; [apply Qc_is_canon; reflexivity|exact M].
Qed.
Print Assumptions C65_mixed_groups_refuted.
