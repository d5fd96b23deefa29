(** C29 - C31: the covariance store.  Conditions are from Store_Spec; [cov_of] is the
    matrix read, as real numbers. *)
From Coq Require Import Reals Qreals ZArith List Bool Arith Sorted Lia Lra.
From Verif Require Import Num XNum Text Dec PyNum Boxer_Model Boxer_Props Mat CovCorr_Model Store_Model Store_Spec Store_Proofs.
From Coq Require Import Lra.
Import ListNotations.
Local Open Scope nat_scope.

(** C29: a successful run has stored a clean correlation, each entry the quotient cut
    to [-1, 1], and contiguous groups with the numbers read (0 +- 1e-7 for groups
    without cross section). *)
Theorem C29_clean : forall s zaid mt known ls s', no_slash zaid -> process s zaid mt known ls = (s', Done) ->
  exists b x sd cov c g, read_matrix ls = Data b x sd cov /\
    get (corr_key zaid (decZ mt)) s' = Some (Corr c) /\ get (dev_key zaid (decZ mt)) s' = Some (Dev g) /\
    clean_correlation (length x) c /\
    (forall i j, i < j -> j < length x -> exists r, cell ENaN c i j = Fn r /\
       cut_quotient (cov_of cov i j) (sqrt (Rabs (cov_of cov i i * cov_of cov j j))) r) /\
    (0 < length x -> contiguous b g) /\ length g = length x /\
    (forall i d, i < length x -> group_data (nth i x 0%Qc) (nth i sd 0%Qc) (nth i g d)).
Proof. exact clean_store. Qed.
Print Assumptions C29_clean.
(** With at least two groups a run succeeds exactly for one more bound than groups,
    one deviation per group, and strictly decreasing bounds. *)
Theorem C29_succeeds : forall s zaid mt known ls b x sd cov, read_matrix ls = Data b x sd cov -> 2 <= length x ->
  (snd (process s zaid mt known ls) = Done <-> length b = S (length x) /\ length sd = length x /\ decreasing b).
Proof. exact succeeds. Qed.
Print Assumptions C29_succeeds.
(** The sampler loads back exactly what was stored. *)
Theorem C29_loads_back : forall s zaid mt known ls s' b x sd cov, no_slash zaid ->
  process s zaid mt known ls = (s', Done) -> read_matrix ls = Data b x sd cov -> 2 <= length x ->
  exists g c, get (dev_key zaid (decZ mt)) s' = Some (Dev g) /\ get (corr_key zaid (decZ mt)) s' = Some (Corr c) /\
    load s' zaid (decZ mt) = Some (g, c).
Proof. exact load_back. Qed.
Print Assumptions C29_loads_back.

(** C30: only the two keys of the nuclide and MT are touched; a run that does not
    succeed touches at most the correlation; a skipped reaction nothing. *)
Theorem C30_other_keys : forall s zaid mt known ls k, k <> corr_key zaid (decZ mt) -> k <> dev_key zaid (decZ mt) ->
  get k (fst (process s zaid mt known ls)) = get k s.
Proof. exact frame_keys. Qed.
Print Assumptions C30_other_keys.
Theorem C30_failure : forall s zaid mt known ls k, snd (process s zaid mt known ls) <> Done -> k <> corr_key zaid (decZ mt) ->
  get k (fst (process s zaid mt known ls)) = get k s.
Proof. exact failed_keys. Qed.
Print Assumptions C30_failure.
Theorem C30_skipped : forall s zaid mt known ls, snd (process s zaid mt known ls) = Skipped -> fst (process s zaid mt known ls) = s.
Proof. exact skipped_same. Qed.
Print Assumptions C30_skipped.

(** A reaction is skipped just when its matrix file says that BOXR failed; the message
    needs the name of the reaction. *)
Theorem C30_skipped_when : forall s zaid mt known ls, snd (process s zaid mt known ls) = Skipped <-> read_matrix ls = BoxrError /\ known = true.
Proof. exact skipped_iff. Qed.
Print Assumptions C30_skipped_when.
(** C29: loading from a store of any origin: correlations are scaled by the greatest
    diagonal entry, energies put the right way round. *)
Theorem C29_load_any : forall s zaid mt g c m, get (dev_key zaid mt) s = Some (Dev g) -> get (corr_key zaid mt) s = Some (Corr c) ->
  g <> [] -> greatest_on_diagonal c m -> m <> 0%R ->
  exists g' c', load s zaid mt = Some (g', c') /\ put_right g g' /\
    forall i j x, cell ENaN c i j = Fn x -> cell ENaN c' i j = Fn (x / m)%R.
Proof. exact load_any. Qed.
Print Assumptions C29_load_any.

(** C31: keys determine their parts. *)
Theorem C31_keys_injective : forall a b d e k a' b' d' e' k',
  no_slash a -> no_slash b -> no_slash d -> no_slash e -> no_slash k ->
  no_slash a' -> no_slash b' -> no_slash d' -> no_slash e' -> no_slash k' ->
  key a b d e k = key a' b' d' e' k' -> a = a' /\ b = b' /\ d = d' /\ e = e' /\ k = k'.
Proof. exact key_inj. Qed.
Print Assumptions C31_keys_injective.
(** Listing a store gives exactly the MT numbers of its keys, in increasing order;
    every store made by [process] is of that form. *)
Theorem C31_listed : forall s, keyed s -> exists l, stored_mts s = Some l /\ StronglySorted Z.lt l /\
  forall m, In m l <-> exists zaid kind f, no_slash zaid /\ In (key zaid (decZ m) zaid (decZ m) kind, f) s.
Proof. exact mts_listed. Qed.
Print Assumptions C31_listed.
Theorem C31_process_keyed : forall s zaid mt known ls, no_slash zaid -> keyed s -> keyed (fst (process s zaid mt known ls)).
Proof. exact process_keyed. Qed.
Print Assumptions C31_process_keyed.

(** ** Concrete cases *)
Definition u235 := str "92235".
Definition u238 := str "92238".
Lemma u235_ok : no_slash u235. Proof. unfold no_slash, u235. cbn. intuition discriminate. Qed.
Lemma u238_ok : no_slash u238. Proof. unfold no_slash, u238. cbn. intuition discriminate. Qed.
(** Two groups, bounds 2E7, 1, 1E-5 (the file of Boxer_Props). *)
Example C29_hypotheses_met : exists b x sd cov, read_matrix demo_file = Data b x sd cov /\ length x = 2 /\
  snd (process [] u235 18 true demo_file) = Done.
Proof.
  destruct C28_fields_hypotheses_met as (sd & cov & R & _). do 4 eexists. split; [exact R|]. split; [reflexivity|]. apply (proj2 (C29_succeeds [] u235 18%Z true _ _ _ _ _ R (le_n 2))).
  split; [reflexivity|]. split.
  - assert (L : match read_matrix demo_file with Data _ _ s _ => length s = 2 | _ => False end) by (vm_compute; reflexivity). now rewrite R in L.
  - intros [|[|i]] Hi; cbn [length nth] in *; [reflexivity|reflexivity|lia].
Qed.
(** The same with the group bounds in increasing order: rejected, but the
    correlation is in the store. *)
Definition rising_file : list text :=
  [ln "0 groups"; concat (rev bnd) ++ [nl]; ln "1 xsec"; concat xsv ++ [nl]; ln "2 std dev"; concat rsd ++ [nl]; ln "3 cov"; concat mtx ++ [nl]].
Theorem C30_atomic_refuted : exists s zaid mt ls, no_slash zaid /\ snd (process s zaid mt true ls) = Raised /\
  get (corr_key zaid (decZ mt)) s = None /\ get (dev_key zaid (decZ mt)) (fst (process s zaid mt true ls)) = None /\
  exists c, get (corr_key zaid (decZ mt)) (fst (process s zaid mt true ls)) = Some (Corr c).
Proof.
  exists [], u235, 18%Z, rising_file. split; [exact u235_ok|].
  assert (R : exists b x sd cov, read_matrix rising_file = Data b x sd cov /\ length x = 2 /\ length b = 3 /\ length sd = 2 /\ length cov = 2 /\ ~ decreasing b).
  { eexists _, _, _, _. split; [vm_compute; reflexivity|]. repeat split. intros D. specialize (D 0 ltac:(cbn; lia)). now vm_compute in D. }
  destruct R as (b & x & sd & cov & R & Lx & Lb & Ls & Lc & D).
  pose proof (proj1 (C29_succeeds [] u235 18%Z true _ _ _ _ _ R ltac:(lia))) as N.
  assert (E : exists c, process [] u235 18%Z true rising_file = (put (corr_key u235 (decZ 18)) (Corr c) [], Raised)).
  { unfold process in *. rewrite R in *. cbv zeta in *. rewrite removelast_len, tl_len in *. rewrite Lx, Lb, Ls, Lc in *. cbn [Nat.sub Nat.eqb negb orb] in *.
    destruct (_ && _); [|eexists; reflexivity]. exfalso. apply D. now apply N. }
  destruct E as (c & ->). split; [reflexivity|]. split; [reflexivity|]. split; [reflexivity|]. exists c. apply get_put_same.
Qed.
Print Assumptions C30_atomic_refuted.
Example C30_failure_hypotheses_met : snd (process [] u235 18 true []) <> Done /\ snd (process [] u235 18 true [str "***ERROR IN BOXR***"]) = Skipped.
Proof. split; [discriminate|reflexivity]. Qed.

Definition two_nuclides : store :=
  [(corr_key u235 (decZ 18), Corr []); (dev_key u235 (decZ 18), Dev []); (corr_key u238 (decZ 16), Corr []); (dev_key u238 (decZ 16), Dev [])].
Example C31_hypotheses_met : keyed two_nuclides.
Proof.
  intros k f [E|[E|[E|[E|[]]]]]; injection E as <- _.
  - exists u235, 18%Z, (str "corr"). split; [exact u235_ok|reflexivity].
  - exists u235, 18%Z, (str "std_dev"). split; [exact u235_ok|reflexivity].
  - exists u238, 16%Z, (str "corr"). split; [exact u238_ok|reflexivity].
  - exists u238, 16%Z, (str "std_dev"). split; [exact u238_ok|reflexivity].
Qed.
(** The listing does not look at the nuclide: an MT may be listed although it is not
    stored for the nuclide sampled, and loading it fails. *)
Theorem C31_listed_loadable_refuted : exists s zaid mt l, keyed s /\ no_slash zaid /\ get (corr_key zaid (decZ 18)) s <> None /\
  stored_mts s = Some l /\ In mt l /\ load s zaid (decZ mt) = None.
Proof.
  exists two_nuclides, u235, 16%Z, [16; 18]%Z. split; [exact C31_hypotheses_met|]. split; [exact u235_ok|]. split; [discriminate|].
  split; [reflexivity|]. split; [now left|reflexivity].
Qed.
Print Assumptions C31_listed_loadable_refuted.
(** Correlations out of 1000 and exchanged energies, as in the parsed SCALE files. *)
Definition scale_groups : list group :=
  [{| e_low := qz 3; e_high := qz 2; xsec := Fin 1; rel := Fin 1; sdev := Fin 1 |}; {| e_low := qz 2; e_high := qz 1; xsec := Fin 1; rel := Fin 1; sdev := Fin 1 |}].
Definition scale_corr : list (list ext) := [[Fn 1000; Fn 500]; [Fn 500; Fn 999]]%R.
Definition scale_store : store := [(dev_key u235 (str "18"), Dev scale_groups); (corr_key u235 (str "18"), Corr scale_corr)].
Example C29_load_any_hypotheses_met : exists g' c', load scale_store u235 (str "18") = Some (g', c') /\ cell ENaN c' 0 1 = Fn (500 / 1000)%R /\
  map e_low g' = [qz 2; qz 1] /\ map e_high g' = [qz 3; qz 2].
Proof.
  destruct (C29_load_any scale_store u235 (str "18") scale_groups scale_corr 1000%R) as (g' & c' & L & P & C); [reflexivity | reflexivity | discriminate | | intros Z; lra |].
  - split; [exists 0; split; [cbn; lia | reflexivity]|]. intros [|[|i]] H; [exists 1000%R; split; [reflexivity | lra] | exists 999%R; split; [reflexivity | lra] | cbn in H; lia].
  - exists g', c'. split; [exact L|]. split; [now apply C|]. destruct P as [_ P]. assert (X : (qz 2 < qz 3)%Qc) by reflexivity. specialize (P X).
    inversion P as [|? ? ? ? (A1 & A2 & _) P1]; subst. inversion P1 as [|? ? ? ? (B1 & B2 & _) P2]; subst. inversion P2; subst. cbn. rewrite A1, A2, B1, B2. split; reflexivity.
Qed.
