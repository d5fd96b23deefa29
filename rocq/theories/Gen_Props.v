(** C61: the program that makes covariance stores.  Conditions are from Gen_Spec; [box] is
    what BOXER makes of a tape and a request. *)
From Coq Require Import Reals ZArith NArith List Bool Arith Ascii String Lia.
From Verif Require Import Num XNum Text Dec PyNum Boxer_Model Boxer_Props Mat CovCorr_Model Store_Spec Name_Model Name_Spec Gen_Model Gen_Spec Gen_Proofs.
From Verif Require Store_Model Njoy_Model Box_Model Box_Spec Run_Model.
Import ListNotations.
Local Open Scope nat_scope.
Local Open Scope list_scope.

(** A run that finishes has run NJOY on the ENDF file; for every reaction wanted (and
    nu-bar and chi of a fissionable target) the store for its number of groups holds what
    BOXER makes of its tape, or BOXER found nothing and the store is unchanged there. *)
Theorem C61_stored : forall box njoy boxer known deck endf o e, boxer_writes box boxer -> forall d s d' s',
  (forall w, o_store o = Some w -> no_braces w) -> generate njoy boxer known deck endf o e d s = (d', s', Finished) ->
  exists mts za d0 d1, wanted o e mts /\ zaid e = Some za /\ njoy d0 deck = Some (0%Z, d1) /\ look (str "tape20") d0 = Some endf /\
    (forall k, k <> str "tape20" -> k <> str "testing_chain.txt" -> look k d0 = look k d) /\
    forall mt n, source e mts mt n -> exists f q, look (str "tape" ++ decN (N.of_nat n)) d1 = Some f /\ asked_for mt q /\
      match read_matrix (box f (request (e_mat e) q)) with
      | Data _ _ _ cov => exists name, store_name o e (List.length cov) name /\ holds s' name (decZ za) mt (box f (request (e_mat e) q))
      | BoxrError => known mt = true /\ forall f k, keys_of (decZ za) mt k -> frame_in s' f k = frame_in s f k
      | _ => False
      end.
Proof. exact generate_stored. Qed.
Print Assumptions C61_stored.
(** However a run ends, nothing else in any store is touched. *)
Theorem C61_others : forall njoy boxer known deck endf o e d s d' s' r, generate njoy boxer known deck endf o e d s = (d', s', r) ->
  forall f k, (forall za mt, zaid e = Some za -> concerns e mt -> ~ keys_of (decZ za) mt k) -> frame_in s' f k = frame_in s f k.
Proof. exact generate_others. Qed.
Print Assumptions C61_others.
(** A run that ends before NJOY changes nothing; one that ends in the chain, no store. *)
Theorem C61_nothing : forall njoy boxer known deck endf o e d s d' s' r, generate njoy boxer known deck endf o e d s = (d', s', r) ->
  (early r = true -> d' = d /\ s' = s) /\ (forall x, r = Chain x -> s' = s).
Proof. exact generate_nothing. Qed.
Print Assumptions C61_nothing.
(** Refused: no covariances at all, or none for one of the reactions asked for. *)
Theorem C61_refused : forall njoy boxer known deck endf o e d s, (0 <= e_z e)%Z -> (0 <= e_a e < 1000)%Z ->
  (snd (generate njoy boxer known deck endf o e d s) = NoCovariances <-> ~ exists mt, In (33%Z, mt) (e_sections e)) /\
  (snd (generate njoy boxer known deck endf o e d s) = NotAvailable <-> (exists mt, In (33%Z, mt) (e_sections e)) /\ exists mt, In mt (o_mts o) /\ ~ In (33%Z, mt) (e_sections e)).
Proof. exact generate_refused. Qed.
Print Assumptions C61_refused.
(** With working programs it finishes. *)
Theorem C61_finishes : forall box njoy boxer known deck endf o e mts d s, boxer_writes box boxer -> wanted o e mts -> programs_work box njoy boxer known deck endf e mts ->
  (0 <= e_z e <= 118)%Z -> (0 <= e_a e < 1000)%Z -> (forall w, o_store o = Some w -> no_braces w) -> (e_fissionable e = true -> ~ In 452%Z mts /\ ~ In 1018%Z mts) ->
  snd (generate njoy boxer known deck endf o e d s) = Finished.
Proof. exact generate_completes. Qed.
Print Assumptions C61_finishes.
(** The identifier is 1000 Z + A, and the sampler finds what is stored under it. *)
Theorem C61_zaid : forall e, (0 <= e_z e)%Z -> (0 <= e_a e < 1000)%Z -> zaid e = Some (1000 * e_z e + e_a e)%Z.
Proof. exact zaid_value. Qed.
Print Assumptions C61_zaid.
Theorem C61_sampler : forall s f mt ls z a, (1 <= z)%Z -> (0 <= a < 1000)%Z -> holds s f (decZ (1000 * z + a)) mt ls ->
  (forall b x sd cov, read_matrix ls = Data b x sd cov -> x <> []) ->
  exists st g g' c, look f s = Some st /\ frame_in s f (Store_Model.dev_key (decZ (1000 * z + a)) (decZ mt)) = Some (Store_Model.Dev g) /\
    Store_Model.load st (Run_Model.zaid_text z a) (decZ mt) = Some (g', c) /\ put_right g g'.
Proof. exact loadable. Qed.
Print Assumptions C61_sampler.
(** BOXER reads the requests as group bounds, cross sections, deviations and covariances of
    the reaction, and an end. *)
Theorem C61_requests : forall mat mt, (0 <= mat < 100000)%Z -> (0 <= mt < 100000)%Z ->
  map read_request (request mat mt) = [Some [0; mat; mt; mat; mt]; Some [1; mat; mt; mat; mt]; Some [2; mat; mt; mat; mt]; Some [3; mat; mt; mat; mt]; Some [0; 0; 0; 0; 0]]%Z.
Proof. exact requests_read. Qed.
Print Assumptions C61_requests.
(** It answers them from a tape that has the four in this order. *)
Theorem C61_answered : forall mat mt c0 sy n m M pre p ps rest, (0 < mat < 100000)%Z -> (0 <= mt < 100000)%Z ->
  (forall i, i < 4 -> Box_Spec.sizes_ok (sy i) (n i) (m i) /\ Box_Spec.encodes (sy i) (n i) (m i) (M i) 1 (p i :: ps i) /\
     let q := Box_Model.Build_request i mat mt mat mt in Forall (Box_Spec.passed_over q) (pre i) /\ Box_Spec.accepted q (p i)) ->
  exists out, Box_Model.serve c0 (map (fun l => boxer_request (match read_request l with Some z => z | None => [] end)) (request mat mt))
      (flat_map (fun i => pre i ++ (p i :: ps i)) [0; 1; 2; 3] ++ rest) = (out, None) /\ List.length out = 4 /\
    forall i, i < 4 -> Box_Spec.lines_of (Box_Model.Build_request i mat mt mat mt) (n i) (m i) (Box_Spec.full (sy i) (M i)) (nth i out []).
Proof. exact answered. Qed.
Print Assumptions C61_answered.
(** The units converted are those the deck writes covariances to (C32, C33). *)
Theorem C61_units : forall nu chi iwt1 w deck t temp, Njoy_Model.make_njoy_run (Njoy_Model.cover_options 1 true nu chi iwt1 w true) = Njoy_Model.Ok (deck, t) ->
  map fst t = map fst (tapeout temp nu chi) /\ Forall2 (fun u v => snd u = Njoy_Model.Boxer <-> boxer_named (snd v) = true) t (tapeout temp nu chi).
Proof. exact units. Qed.
Print Assumptions C61_units.
(** Names chosen by the program differ for different nuclides and numbers of groups. *)
Theorem C61_default_names : forall z a n z' a' n' w w', (0 <= a)%Z -> (0 <= a')%Z -> symbol z = Some w -> symbol z' = Some w' ->
  w ++ decZ a ++ str "_" ++ decN (N.of_nat n) ++ str "g.h5" = w' ++ decZ a' ++ str "_" ++ decN (N.of_nat n') ++ str "g.h5" -> z = z' /\ a = a' /\ n = n'.
Proof. exact default_names. Qed.
Print Assumptions C61_default_names.

(** ** Claims that do not hold *)
(** Fission is added to the reactions of a fissionable target and converted, but not
    stored unless it was asked for. *)
Theorem C61_fission_refuted : forall box njoy boxer known deck endf o e d s d' s' mts, boxer_writes box boxer -> e_fissionable e = true -> selected o e = Some mts -> ~ In 18%Z mts ->
  generate njoy boxer known deck endf o e d s = (d', s', Finished) ->
  look (str "covr_" ++ decZ (o_temp o) ++ str ".txt_18_matrix.txt") d' <> None /\ forall za f k, zaid e = Some za -> keys_of (decZ za) 18 k -> frame_in s' f k = frame_in s f k.
Proof. exact fission_dropped. Qed.
Print Assumptions C61_fission_refuted.
(** "_#groups is automatically appended to the given name": there is no underscore, so two
    names with different structures can be one file. *)
Theorem C61_given_names_refuted : exists o o' e n n', (forall w, o_store o = Some w -> no_braces w) /\ o_store o <> o_store o' /\ n <> n' /\ forall f, store_name o e n f <-> store_name o' e n' f.
Proof.
  exists {| o_mts := []; o_temp := 300; o_store := Some (str "lib") |}, {| o_mts := []; o_temp := 300; o_store := Some (str "lib2") |},
    {| e_z := 92; e_a := 235; e_isomer := 0; e_fissionable := true; e_mat := 9228; e_sections := [] |}, 252, 52.
  split; [intros w [= <-]; split; cbn; intuition discriminate|]. split; [discriminate|]. split; [discriminate|]. intros f. unfold store_name. cbn [o_store].
  replace (str "lib" ++ decN (N.of_nat 252) ++ str "g.h5") with (str "lib2" ++ decN (N.of_nat 52) ++ str "g.h5") by reflexivity. reflexivity.
Qed.
Print Assumptions C61_given_names_refuted.
(** A ground state and its isomer share identifier and store name: the second run replaces
    what the first stored. *)
Theorem C61_isomers_refuted : forall e e' o, e_z e = e_z e' -> e_a e = e_a e' -> zaid e = zaid e' /\ (forall n f, store_name o e n f <-> store_name o e' n f).
Proof. intros e e' o Z A. unfold zaid, store_name. rewrite Z, A. split; [reflexivity|]. intros n f. destruct (o_store o); reflexivity. Qed.
Print Assumptions C61_isomers_refuted.

(** ** Concrete cases *)
(** U-235 with covariances for elastic scattering and fission. *)
Definition ge : evaluation := {| e_z := 92; e_a := 235; e_isomer := 0; e_fissionable := true; e_mat := 9228; e_sections := [(1, 451); (3, 2); (3, 18); (33, 2); (33, 18)]%Z |}.
Definition go : options := {| o_mts := []; o_temp := 300; o_store := None |}.
(** NJOY writes three tapes; BOXER finds data for everything but chi. *)
Definition g_njoy : program := fun d _ => match look (tape 20) d with
  | Some endf => Some (0%Z, save (str "output") [] (save (tape 25) (str "main" :: endf) (save (tape 32) (str "nu" :: endf) (save (tape 36) (str "chi" :: endf) d))))
  | None => Some (1%Z, d) end.
Definition g_box (f q : file) : file := match f with n :: _ => if eqt n (str "chi") then [str "***ERROR IN BOXR***"] else demo_file | [] => [] end.
Definition g_boxer : program := fun d q => match look fort20 d with Some f => Some (0%Z, save fort21 (g_box f q) d) | None => None end.
Lemma g_boxer_writes : boxer_writes g_box g_boxer.
Proof.
  intros d q c d' H. unfold g_boxer in H. change (str "fort.20") with fort20. change (str "fort.21") with fort21. destruct (look fort20 d) as [f|]; [|discriminate]. injection H as <- <-. split.
  - intros n N. now apply look_save_other.
  - intros _ g [= <-]. apply look_save_same.
Qed.
Lemma demo_storable : storable true demo_file.
Proof.
  right. destruct C28_fields_hypotheses_met as (sd & cov & R & _). do 4 eexists. split; [exact R|]. split; [cbn; lia|]. split; [reflexivity|]. split.
  - assert (L : match read_matrix demo_file with Data _ _ s _ => List.length s = 2 | _ => False end) by (vm_compute; reflexivity). now rewrite R in L.
  - intros [|[|i]] Hi; cbn [List.length nth] in *; [reflexivity|reflexivity|lia].
Qed.
Lemma g_wanted : wanted go ge [2; 18]%Z.
Proof. split; [exists 2%Z; cbn; tauto|]. right. split; [reflexivity|]. intros mt. cbn. intuition congruence. Qed.
Lemma g_works endf : programs_work g_box g_njoy g_boxer (fun _ => true) [] endf ge [2; 18]%Z.
Proof.
  split.
  - intros d q H. unfold g_boxer. change (str "fort.20") with fort20 in H. destruct (look fort20 d); [eauto | contradiction].
  - intros d H. unfold g_njoy. change (str "tape20") with (tape 20) in H. rewrite H. eexists. split; [reflexivity|]. split; [discriminate|]. split.
    + intros n [->|[_ [->| ->]]]; discriminate.
    + intros mt n f q S1 L _. assert (X : n = 25 \/ n = 32 \/ n = 36) by (destruct S1 as [(_ & -> & _)|[(_ & _ & _ & ->)|(_ & _ & _ & ->)]]; auto).
      destruct X as [->|[->| ->]]; cbn in L; injection L as <-; cbn [g_box]; [exact demo_storable | exact demo_storable |]. left. split; [vm_compute|]; reflexivity.
Qed.
Example C61_hypotheses_met : boxer_writes g_box g_boxer /\ wanted go ge [2; 18]%Z /\ programs_work g_box g_njoy g_boxer (fun _ => true) [] [] ge [2; 18]%Z /\
  snd (generate g_njoy g_boxer (fun _ => true) [] [] go ge [] []) = Finished /\ source ge [2; 18]%Z 452 32 /\ store_name go ge 252 (str "U235_252g.h5") /\
  snd (generate g_njoy g_boxer (fun _ => true) [] [] {| o_mts := [2; 4]%Z; o_temp := 300; o_store := None |} ge [] []) = NotAvailable.
Proof.
  split; [exact g_boxer_writes|]. split; [exact g_wanted|]. split; [apply g_works|]. split; [|split; [|split; [|reflexivity]]].
  - apply (C61_finishes g_box _ _ _ _ _ _ _ [2; 18]%Z); [exact g_boxer_writes | exact g_wanted | apply g_works | cbn; lia | cbn; lia | discriminate | intros _; cbn; intuition discriminate].
  - right. left. split; [reflexivity|]. split; [cbn; intuition discriminate|]. now split.
  - exists (str "U"). split; [|reflexivity]. apply (Name_Proofs.symbol_element 92). reflexivity.
Qed.
(** Only elastic scattering asked for: fission is not stored. *)
Example C61_fission_case : selected {| o_mts := [2]%Z; o_temp := 300; o_store := None |} ge = Some [2]%Z /\ ~ In 18%Z [2]%Z /\
  snd (generate g_njoy g_boxer (fun _ => true) [] [] {| o_mts := [2]%Z; o_temp := 300; o_store := None |} ge [] []) = Finished.
Proof.
  split; [reflexivity|]. split; [cbn; intuition discriminate|].
  apply (C61_finishes g_box _ _ _ _ _ _ _ [2]%Z); [exact g_boxer_writes | | | cbn; lia | cbn; lia | discriminate | intros _; cbn; intuition discriminate].
  - split; [exists 2%Z; cbn; tauto|]. left. split; [discriminate|]. split; [reflexivity|]. intros mt [<-|[]]. cbn. tauto.
  - destruct (g_works []) as [A B]. split; [exact A|]. intros d H. destruct (B d H) as (d' & B1 & B2 & B3 & B4). exists d'. split; [exact B1|]. split; [exact B2|]. split; [exact B3|].
    intros mt n f q S1. apply B4. unfold source in *. cbn in *. intuition congruence.
Qed.
(** Tapes left from an earlier run are taken for new ones when NJOY writes none. *)
Definition idle_njoy : program := fun d _ => Some (0%Z, save (str "output") [] d).
Theorem C61_stale_refuted : exists d s d' s', generate idle_njoy g_boxer (fun _ => true) [] [] {| o_mts := [2]%Z; o_temp := 300; o_store := None |}
    {| e_z := 92; e_a := 235; e_isomer := 0; e_fissionable := false; e_mat := 9228; e_sections := [(33, 2)]%Z |} d s = (d', s', Finished) /\
  exists f, frame_in s f (Store_Model.dev_key (str "92235") (str "2")) = None /\ frame_in s' f (Store_Model.dev_key (str "92235") (str "2")) <> None.
Proof.
  set (o := {| o_mts := [2]%Z; o_temp := 300; o_store := None |}). set (e := {| e_z := 92; e_a := 235; e_isomer := 0; e_fissionable := false; e_mat := 9228; e_sections := [(33, 2)]%Z |}).
  assert (R : exists d', run_cover_chain idle_njoy g_boxer [] [] 300 9228 [2]%Z false false [(tape 25, [str "old"])] = (d', None) /\ look (matrix_name (covr_name "covr" 300) 2) d' = Some demo_file) by (eexists; split; [cbv - [demo_file]; reflexivity | reflexivity]).
  destruct R as (d' & R & L). exists [(tape 25, [str "old"])], []. unfold generate. change (zaid e) with (Some 92235%Z). change (available e) with [2]%Z. change (selected o e) with (Some [2]%Z). change (store_format o e) with (Some (str "U235_{0}g.h5")).
  cbn [o_temp e_mat e_fissionable o e]. rewrite R. change (kept 300 [2]%Z false false) with [(2%Z, covr_name "covr" 300)].
  destruct (store_one_ok (fun _ => true) (str "U235_{0}g.h5") (decZ 92235) d' 2 (covr_name "covr" 300) demo_file [] L demo_storable) as (s' & SO).
  { intros g. change (str "U235_{0}g.h5") with (str "U235_" ++ str "{0}g.h5"). rewrite (format_plain g (str "U235_") (str "{0}g.h5")); [discriminate | split; cbn; intuition discriminate]. }
  cbn [store_all]. rewrite SO. exists d', s'. split; [reflexivity|].
  destruct (store_one_done (fun _ => true) _ _ d' (Store_Proofs.dec_no_slash 92235) _ _ _ _ SO) as (ls & L' & M). rewrite L in L'. injection L' as <-.
  destruct C28_fields_hypotheses_met as (sd & cov & RD & _). rewrite RD in M. destruct M as (f & _ & HD). exists f. split; [reflexivity|].
  destruct HD as (b & x & sd' & cov' & c & g & _ & _ & GD & _). change (str "92235") with (decZ 92235). change (str "2") with (decZ 2). rewrite GD. discriminate.
Qed.
Print Assumptions C61_stale_refuted.
(** Four small matrices. *)
Example C61_answered_hypotheses_met : exists (sy : nat -> bool) (n m : nat -> nat) M (pre : nat -> list Box_Model.rec) p ps, forall i, i < 4 ->
  Box_Spec.sizes_ok (sy i) (n i) (m i) /\ Box_Spec.encodes (sy i) (n i) (m i) (M i) 1 (p i :: ps i) /\
     let q := Box_Model.Build_request i 9228 2 9228 2 in Forall (Box_Spec.passed_over q) (pre i) /\ Box_Spec.accepted q (p i).
Proof.
  exists (fun _ => false), (fun _ => 2), (fun _ => 1), (fun _ i _ => qz (Z.of_nat i)), (fun _ => []),
    (fun i => {| Box_Model.itypeh := i; Box_Model.math := 9228; Box_Model.mth := 2; Box_Model.mat1h := 9228; Box_Model.mt1h := 2;
       Box_Model.xval := [qz 1; qz 2]; Box_Model.icon := [-1; -1]%Z; Box_Model.more := false; Box_Model.nrow := 2; Box_Model.ncolh := 1 |}), (fun _ => []).
  intros i Hi. split; [unfold Box_Spec.sizes_ok; repeat split; lia || discriminate|]. split.
  - apply (Box_Spec.encodes_last false 2 1 _ 1 2 _ [Box_Spec.Value (qz 1); Box_Spec.Value (qz 2)]); try reflexivity.
    + apply (Box_Spec.spells_value 1 [-1]%Z (qz 1) [qz 2] [Box_Spec.Value (qz 2)]); [lia|]. apply (Box_Spec.spells_value 1 []%Z (qz 2) [] []); [lia|]. constructor.
    + cbn. repeat constructor.
  - split; [constructor|]. unfold Box_Spec.accepted, Box_Spec.matches. cbn. split; [lia|]. repeat split; lia || auto.
Qed.
