From Coq Require Import Reals ZArith NArith List Bool Arith Ascii String Lia.
From Verif Require Import Num XNum Text Dec PyNum Boxer_Model Mat CovCorr_Model Store_Spec Name_Model Name_Spec Name_Proofs Gen_Model Gen_Spec.
From Verif Require Store_Model Store_Proofs Njoy_Model Box_Model Box_Spec Box_Proofs Run_Model.
Import ListNotations.
Local Open Scope list_scope.

(** ** Files by name *)
Section Named.
Context {A : Type}.
Lemma eqt_neq a b : a <> b -> eqt a b = false.
Proof. intros H. destruct (eqt a b) eqn:E; [|reflexivity]. apply eqt_eq in E. contradiction. Qed.
Lemma look_remove_other k k' (d : list (text * A)) : k' <> k -> look k' (remove k d) = look k' d.
Proof.
  intros H. induction d as [|[q f] d IH]; [reflexivity|]. cbn [remove filter fst]. destruct (eqt k q) eqn:E; cbn [negb look].
  - apply eqt_eq in E as <-. now rewrite (eqt_neq _ _ H).
  - destruct (eqt k' q); [reflexivity | exact IH].
Qed.
Lemma look_remove_same k (d : list (text * A)) : look k (remove k d) = None.
Proof.
  induction d as [|[q f] d IH]; [reflexivity|]. cbn [remove filter fst]. destruct (eqt k q) eqn:E; cbn [negb look]; [exact IH|]. rewrite E. exact IH.
Qed.
Lemma look_save_same k f (d : list (text * A)) : look k (save k f d) = Some f.
Proof. cbn. now rewrite eqt_refl. Qed.
Lemma look_save_other k k' f (d : list (text * A)) : k' <> k -> look k' (save k f d) = look k' d.
Proof. intros H. cbn. rewrite (eqt_neq _ _ H). now apply look_remove_other. Qed.
End Named.

(** ** Effects *)
Lemma andthen_inv f g d d' : andthen f g d = (d', None) -> exists d1, f d = (d1, None) /\ g d1 = (d', None).
Proof. unfold andthen. destruct (f d) as [d1 [e|]]; [discriminate | eauto]. Qed.
Lemma copy_inv a b d d' : copy a b d = (d', None) -> exists f, look a d = Some f /\ d' = save b f d.
Proof. unfold copy. destruct (look a d) as [f|]; [|discriminate]. intros [= <-]. eauto. Qed.
Lemma move_inv a b d d' : move a b d = (d', None) -> exists f, look a d = Some f /\ d' = save b f (remove a d).
Proof. unfold move. destruct (look a d) as [f|]; [|discriminate]. intros [= <-]. eauto. Qed.
Definition logged (log : text) (d : dir) : file := match look log d with Some l => l | None => [] end.
Lemma run_inv p q log d d' : run_program p q log d = (d', None) -> p (save log (logged log d ++ q ++ [[nl]]) d) q = Some (0%Z, d').
Proof.
  unfold run_program, logged. destruct (p _ q) as [[c d1]|]; [|discriminate]. destruct (Z.eqb_spec c 0) as [->|]; [|discriminate]. now intros [= <-].
Qed.

(** ** Names *)
Lemma tape_not n k : (forall r, k <> "t"%char :: "a"%char :: r) -> tape n <> k.
Proof. intros H E. apply (H (str "pe" ++ decN (N.of_nat n))). rewrite <- E. reflexivity. Qed.
Lemma split_last (c : ascii) a b u v : ~ In c u -> ~ In c v -> a ++ c :: u = b ++ c :: v -> a = b /\ u = v.
Proof.
  revert b. induction a as [|x a IH]; intros [|y b] U V E; cbn in E.
  - injection E as <-. now split.
  - injection E as -> ->. exfalso. apply U. apply in_or_app. right. now left.
  - injection E as -> <-. exfalso. apply V. apply in_or_app. right. now left.
  - injection E as -> E. destruct (IH b U V E) as [-> ->]. now split.
Qed.
Lemma matrix_name_inj n m n' m' : matrix_name n m = matrix_name n' m' -> n = n' /\ m = m'.
Proof.
  unfold matrix_name. rewrite !app_assoc. intros E. apply app_inv_tail in E. rewrite <- !app_assoc in E. change (str "_") with ["_"%char] in E. cbn [app] in E.
  apply split_last in E; [|apply decZ_notin; [reflexivity | discriminate]|apply decZ_notin; [reflexivity | discriminate]]. destruct E as [-> E]. split; [reflexivity | now apply decZ_inj].
Qed.
Definition covr_name (s : string) (temp : Z) : text := str s ++ str "_" ++ decZ temp ++ str ".txt".
Lemma dec_then t c r r' : is_digit c = false -> c <> "-"%char -> decZ t ++ r <> c :: r'.
Proof.
  intros D M E. destruct (decZ t) as [|x l] eqn:ED; [exact (decZ_nonnil t ED)|]. cbn in E. injection E as -> _. apply (decZ_notin t c D M). rewrite ED. now left.
Qed.
Lemma covr_differ t : covr_name "covr" t <> covr_name "covr_nu" t /\ covr_name "covr" t <> covr_name "covr_chi" t /\ covr_name "covr_nu" t <> covr_name "covr_chi" t.
Proof.
  unfold covr_name. cbn. split; [|split].
  - intros E. injection E as E. revert E. apply dec_then; [reflexivity | discriminate].
  - intros E. injection E as E. revert E. apply dec_then; [reflexivity | discriminate].
  - discriminate.
Qed.
Lemma step_dec (a b : nat * text * Z) : {a = b} + {a <> b}.
Proof. repeat decide equality. Defined.

(** ** Conversions *)
Section Chain.
Variables (box : file -> file -> file) (boxer : program) (mat : Z).
Hypothesis BW : boxer_writes box boxer.
Lemma convert_step n name mt d d' : convert boxer mat (n, name, mt) d = (d', None) -> (exists r, name = "c"%char :: r) ->
  exists f, look (tape n) d = Some f /\ look (matrix_name name mt) d' = Some (box f (request mat (asked mt))) /\
    (forall k, k <> fort20 -> k <> fort21 -> k <> log2 -> k <> matrix_name name mt -> look k d' = look k d) /\
    logged log2 d' = logged log2 d ++ request mat (asked mt) ++ [[nl]].
Proof.
  intros H (r & En). unfold convert in H. apply andthen_inv in H. destruct H as (d1 & H1 & H). apply andthen_inv in H. destruct H as (d2 & H2 & H3).
  apply copy_inv in H1. destruct H1 as (f & F & ->). apply run_inv in H2. apply move_inv in H3. destruct H3 as (g & G & ->).
  assert (L0 : logged log2 (save fort20 f d) = logged log2 d) by (unfold logged; now rewrite look_save_other by discriminate). rewrite L0 in H2.
  destruct (BW _ _ _ _ H2) as [FR WR]. specialize (WR eq_refl f). change (str "fort.20") with fort20 in WR. change (str "fort.21") with fort21 in WR, FR.
  rewrite look_save_other in WR by discriminate. rewrite look_save_same in WR. specialize (WR eq_refl). rewrite WR in G. injection G as <-.
  assert (ML : matrix_name name mt <> log2) by (unfold matrix_name; rewrite En; discriminate).
  exists f. split; [exact F|]. split; [apply look_save_same|]. split.
  - intros k K1 K2 K3 K4. rewrite look_save_other, look_remove_other, FR, look_save_other, look_save_other by assumption. reflexivity.
  - unfold logged at 1. rewrite look_save_other, look_remove_other, FR, look_save_same by (discriminate || now apply not_eq_sym). reflexivity.
Qed.
Lemma each_convert l : (forall n name mt, In (n, name, mt) l -> exists r, name = "c"%char :: r) -> forall d d', each (convert boxer mat) l d = (d', None) ->
  (forall n name mt, In (n, name, mt) l -> (forall n' , In (n', name, mt) l -> n' = n) ->
     exists f, look (tape n) d = Some f /\ look (matrix_name name mt) d' = Some (box f (request mat (asked mt)))) /\
  (forall k, k <> fort20 -> k <> fort21 -> k <> log2 -> (forall n name mt, In (n, name, mt) l -> k <> matrix_name name mt) -> look k d' = look k d) /\
  logged log2 d' = logged log2 d ++ flat_map (fun x => request mat (asked (snd x)) ++ [[nl]]) l.
Proof.
  induction l as [|[[n0 name0] mt0] l IH]; intros N d d' H.
  - cbn in H. injection H as <-. split; [intros ? ? ? []|]. split; [reflexivity|]. cbn. now rewrite app_nil_r.
  - cbn [each] in H. apply andthen_inv in H. destruct H as (d1 & H1 & H2). destruct (IH (fun n name mt I => N n name mt (or_intror I)) d1 d' H2) as (A & B & C). clear IH.
    apply convert_step in H1; [|exact (N _ _ _ (or_introl eq_refl))]. destruct H1 as (f & F & M & FR & LG).
    assert (TP : forall n, look (tape n) d1 = look (tape n) d).
    { intros n. destruct (N _ _ _ (or_introl eq_refl)) as (r & ->). apply FR; apply tape_not; discriminate. }
    split; [|split].
    + intros n name mt I U. destruct (in_dec step_dec (n, name, mt) l) as [IL|NL].
      * destruct (A n name mt IL) as (f' & F' & M'); [intros n' I'; apply U; now right|]. exists f'. rewrite <- TP. now split.
      * destruct I as [E|I]; [|contradiction]. injection E as -> -> ->. exists f. split; [exact F|]. rewrite B; [exact M|..].
        -- destruct (N _ _ _ (or_introl eq_refl)) as (r & ->). discriminate.
        -- destruct (N _ _ _ (or_introl eq_refl)) as (r & ->). discriminate.
        -- destruct (N _ _ _ (or_introl eq_refl)) as (r & ->). discriminate.
        -- intros n' name' mt' I' E. apply matrix_name_inj in E. destruct E as [<- <-]. assert (n' = n) as -> by (apply U; now right). contradiction.
    + intros k K1 K2 K3 K4. rewrite B; auto; [|intros n name mt I; apply (K4 n); now right]. apply FR; auto. apply (K4 n0). now left.
    + rewrite C, LG. cbn [flat_map snd]. now rewrite <- !app_assoc.
Qed.
End Chain.
Lemma each_copies l : forall d d', each (fun t : nat * text => copy_if (tape (fst t)) (snd t)) l d = (d', None) ->
  forall k, (forall t, In t l -> k <> snd t) -> look k d' = look k d.
Proof.
  induction l as [|[n name] l IH]; intros d d' H k K; [cbn in H; now injection H as <-|]. cbn [each] in H. apply andthen_inv in H. destruct H as (d1 & H1 & H2).
  rewrite (IH _ _ H2) by (intros t I; apply K; now right). unfold copy_if in H1. cbn [fst snd] in H1. destruct (look (tape n) d); injection H1 as <-; [|reflexivity].
  apply look_save_other. apply (K (n, name)). now left.
Qed.
Lemma tapeout_names temp nu chi t : In t (tapeout temp nu chi) -> exists r, snd t = "c"%char :: r \/ snd t = "v"%char :: r.
Proof. unfold tapeout. destruct nu, chi; cbn; intuition (subst; cbn; eauto). Qed.
Definition covers (temp : Z) (nu chi : bool) : list (nat * text) :=
  [(25%nat, covr_name "covr" temp)] ++ (if nu then [(32%nat, covr_name "covr_nu" temp)] else []) ++
  (if chi then [((if nu then 36%nat else 32%nat), covr_name "covr_chi" temp)] else []).
Lemma covers_picked temp nu chi : Njoy_Model.every_other (tapeout temp nu chi) = covers temp nu chi.
Proof. destruct nu, chi; reflexivity. Qed.
Lemma covers_named temp nu chi n name : In (n, name) (covers temp nu chi) -> exists r, name = "c"%char :: r.
Proof. unfold covers. destruct nu, chi; cbn; intuition (match goal with H : _ = _ |- _ => injection H as <- <- end; eauto). Qed.
Lemma covers_unit temp nu chi n n' name : In (n, name) (covers temp nu chi) -> In (n', name) (covers temp nu chi) -> n' = n.
Proof.
  destruct (covr_differ temp) as (A & B & C). unfold covers. destruct nu, chi; cbn [app In]; intros H H';
    repeat match goal with H : _ \/ _ |- _ => destruct H end; try contradiction; repeat match goal with H : (_, _) = (_, _) |- _ => injection H as <- ? end; subst; try reflexivity; try congruence.
Qed.
Lemma steps_in (cs : list (nat * text)) (mts : list Z) n name mt : In (n, name, mt) (flat_map (fun t => map (fun mt => (t, mt)) mts) cs) <-> In (n, name) cs /\ In mt mts.
Proof.
  rewrite in_flat_map. split.
  - intros ([n' name'] & I & J). apply in_map_iff in J. destruct J as (m & [= -> -> ->] & J). now split.
  - intros [I J]. exists (n, name). split; [exact I|]. apply in_map_iff. now exists mt.
Qed.
Lemma chain_done box njoy boxer deck endf temp mat mts nu chi d d' : boxer_writes box boxer ->
  run_cover_chain njoy boxer deck endf temp mat mts nu chi d = (d', None) ->
  exists d0 d1, njoy d0 deck = Some (0%Z, d1) /\ look (tape 20) d0 = Some endf /\
    (forall k, k <> tape 20 -> k <> log1 -> look k d0 = look k d) /\
    (forall n name mt, In (n, name) (covers temp nu chi) -> In mt (converted mts nu chi) ->
       exists f, look (tape n) d1 = Some f /\ look (matrix_name name mt) d' = Some (box f (request mat (asked mt)))) /\
    logged log2 d' = logged log2 d1 ++ flat_map (fun x => request mat (asked (snd x)) ++ [[nl]]) (flat_map (fun t => map (fun mt => (t, mt)) (converted mts nu chi)) (covers temp nu chi)).
Proof.
  intros BW H. unfold run_cover_chain, cover_chain in H. rewrite covers_picked in H. apply andthen_inv in H. destruct H as (da & Ha & H). injection Ha as <-.
  apply andthen_inv in H. destruct H as (d1 & H1 & H). apply run_inv in H1. apply andthen_inv in H. destruct H as (d2 & H2 & H). apply copy_inv in H2. destruct H2 as (f & F & ->).
  apply andthen_inv in H. destruct H as (d3 & H3 & H4).
  set (d0 := save log1 _ _) in H1. exists d0, d1. split; [exact H1|]. split; [unfold d0; rewrite look_save_other by (apply tape_not; discriminate); apply look_save_same|].
  split; [intros k K1 K2; unfold d0; now rewrite !look_save_other by assumption|].
  assert (FR : forall k, (exists r, k = "t"%char :: r) -> look k d3 = look k d1).
  { intros k (r & ->). rewrite (each_copies _ _ _ H3); [|intros t I E; destruct (tapeout_names _ _ _ _ I) as (q & [Q|Q]); rewrite Q in E; discriminate]. apply look_save_other. discriminate. }
  assert (NM : forall n name mt, In (n, name, mt) (flat_map (fun t => map (fun mt => (t, mt)) (converted mts nu chi)) (covers temp nu chi)) -> exists r, name = "c"%char :: r)
    by (intros n name mt I; apply steps_in in I; exact (covers_named _ _ _ _ _ (proj1 I))).
  destruct (each_convert box boxer mat BW _ NM _ _ H4) as (A & _ & C). split.
  - intros n name mt I J. destruct (A n name mt) as (g & G & M); [now apply steps_in | intros n' I'; apply steps_in in I'; exact (covers_unit _ _ _ _ _ _ I (proj1 I'))|].
    exists g. rewrite FR in G by (exists (str "ape" ++ decN (N.of_nat n)); reflexivity). now split.
  - rewrite C. f_equal. unfold logged. rewrite FR by (now exists (str "esting_chain.txtboxer.txt")). reflexivity.
Qed.

(** ** Stores *)
Lemma keys_apart za mt mt' k : no_slash za -> mt <> mt' -> keys_of za mt k -> ~ keys_of za mt' k.
Proof.
  intros Z N H H'. unfold keys_of, Store_Model.corr_key, Store_Model.dev_key in *.
  destruct H as [->| ->], H' as [E|E]; apply Store_Proofs.key_inj in E; try (intuition auto using Store_Proofs.dec_no_slash, Store_Proofs.corr_no_slash, Store_Proofs.dev_no_slash); apply N; now apply decZ_inj.
Qed.
Lemma frame_save s f st k g : frame_in (save f st s) g k = if eqt g f then Store_Model.get k st else frame_in s g k.
Proof.
  unfold frame_in. destruct (eqt g f) eqn:E; [apply eqt_eq in E as ->; now rewrite look_save_same|]. rewrite look_save_other; [reflexivity|]. intros ->. rewrite eqt_refl in E. discriminate.
Qed.
Section Stores.
Variables (known : Z -> bool) (fmt za : text) (d : dir).
Hypothesis NS : no_slash za.
Lemma store_one_frame mt name s s' e k f : store_one known fmt za d (mt, name) s = (s', e) -> ~ keys_of za mt k -> frame_in s' f k = frame_in s f k.
Proof.
  unfold store_one. intros H K. destruct (look _ d) as [ls|]; [|injection H as <- _; reflexivity].
  destruct (read_matrix ls) as [| | | |b x sd cov]; try (injection H as <- _; reflexivity).
  destruct (format _ fmt) as [g|]; [|injection H as <- _; reflexivity].
  destruct (Store_Model.process _ za mt (known mt) ls) as [new e'] eqn:P. injection H as <- _. rewrite frame_save. destruct (eqt f g) eqn:E; [|reflexivity]. apply eqt_eq in E as ->.
  replace new with (fst (Store_Model.process (match look g s with Some s0 => s0 | None => [] end) za mt (known mt) ls)) by now rewrite P.
  rewrite Store_Proofs.frame_keys by (intros ->; apply K; [now left | now right] || (intros ->; apply K; now left) || (intros ->; apply K; now right)). unfold frame_in. now destruct (look g s).
Qed.
Lemma store_one_done mt name s s' : store_one known fmt za d (mt, name) s = (s', Finished) ->
  exists ls, look (matrix_name name mt) d = Some ls /\
    match read_matrix ls with
    | Data _ _ _ cov => exists f, format (decN (N.of_nat (List.length cov))) fmt = Some f /\ holds s' f za mt ls
    | BoxrError => s' = s /\ known mt = true
    | _ => False
    end.
Proof.
  unfold store_one. destruct (look _ d) as [ls|]; [|discriminate]. intros H. exists ls. split; [reflexivity|].
  destruct (read_matrix ls) as [| | | |b x sd cov] eqn:R.
  - injection H as <- E. split; [reflexivity|]. unfold Store_Model.process in E. rewrite R in E. cbn in E. now destruct (known mt).
  - injection H as _ E. unfold Store_Model.process in E. rewrite R in E. discriminate.
  - injection H as _ E. unfold Store_Model.process in E. rewrite R in E. discriminate.
  - injection H as _ E. unfold Store_Model.process in E. rewrite R in E. discriminate.
  - destruct (format _ fmt) as [f|]; [|discriminate]. exists f. split; [reflexivity|].
    destruct (Store_Model.process _ za mt (known mt) ls) as [new e'] eqn:P. destruct e'; [|pose proof (proj1 (Store_Proofs.skipped_iff _ za mt (known mt) ls) (f_equal snd P)) as [X _]; congruence | discriminate].
    injection H as <-. destruct (Store_Proofs.clean_store _ _ _ _ _ _ NS P) as (b' & x' & sd' & cov' & c & g & A & B & C & D). rewrite R in A. injection A as <- <- <- <-.
    exists b, x, sd, cov, c, g. split; [exact R|]. rewrite !frame_save, eqt_refl. split; [exact B|]. split; [exact C | exact D].
Qed.
Lemma holds_same s s' f mt ls : (forall k, keys_of za mt k -> frame_in s' f k = frame_in s f k) -> holds s f za mt ls -> holds s' f za mt ls.
Proof.
  intros H (b & x & sd & cov & c & g & A & B & C & D). exists b, x, sd, cov, c, g. rewrite (H (Store_Model.corr_key za (decZ mt)) (or_introl eq_refl)), (H (Store_Model.dev_key za (decZ mt)) (or_intror eq_refl)). split; [exact A|]. split; [exact B|]. split; [exact C | exact D].
Qed.
Lemma store_all_frame l : forall s s' e k f, store_all known fmt za d l s = (s', e) -> (forall mt name, In (mt, name) l -> ~ keys_of za mt k) -> frame_in s' f k = frame_in s f k.
Proof.
  induction l as [|[mt name] l IH]; intros s s' e k f H K; cbn [store_all] in H; [now injection H as <- _|].
  destruct (store_one known fmt za d (mt, name) s) as [s1 e1] eqn:E1. assert (F1 : frame_in s1 f k = frame_in s f k) by (apply (store_one_frame mt name s s1 e1); [exact E1 | apply (K mt name); now left]).
  destruct e1; try (injection H as <- _; exact F1). rewrite (IH _ _ _ _ _ H); [exact F1|]. intros m n I. apply (K m n). now right.
Qed.
Lemma store_all_done l : forall s s', store_all known fmt za d l s = (s', Finished) -> forall mt name, In (mt, name) l -> (forall name', In (mt, name') l -> name' = name) ->
  exists ls, look (matrix_name name mt) d = Some ls /\
    match read_matrix ls with
    | Data _ _ _ cov => exists f, format (decN (N.of_nat (List.length cov))) fmt = Some f /\ holds s' f za mt ls
    | BoxrError => known mt = true /\ forall f k, keys_of za mt k -> frame_in s' f k = frame_in s f k
    | _ => False
    end.
Proof.
  induction l as [|[mt0 name0] l IH]; intros s s' H mt name I U; [destruct I|]. cbn [store_all] in H.
  destruct (store_one known fmt za d (mt0, name0) s) as [s1 e1] eqn:E1. destruct e1; try discriminate.
  assert (DEC : {In mt (map fst l)} + {~ In mt (map fst l)}) by apply (in_dec Z.eq_dec). destruct DEC as [J|J].
  - apply in_map_iff in J. destruct J as ((m & nm) & Em & J). cbn in Em. subst m. assert (nm = name) as -> by (apply U; now right).
    destruct (IH _ _ H mt name J) as (ls & L & R); [intros n' I'; apply U; now right|]. exists ls. split; [exact L|].
    destruct (read_matrix ls) as [| | | |b x sd cov] eqn:RM; try contradiction; [|exact R]. destruct R as [K R]. split; [exact K|]. intros f k KO. rewrite (R f k KO).
    destruct (Z.eq_dec mt0 mt) as [->|NE].
    + assert (name0 = name) as -> by (apply U; now left). apply store_one_done in E1. destruct E1 as (ls' & L' & R'). rewrite L in L'. injection L' as <-. rewrite RM in R'. destruct R' as [-> _]. reflexivity.
    + apply (store_one_frame mt0 name0 s s1 Finished); [exact E1|]. apply (keys_apart za mt); auto.
  - destruct I as [I|I]; [|exfalso; apply J; apply in_map_iff; exists (mt, name); now split]. injection I as -> ->.
    assert (ST : forall f k, keys_of za mt k -> frame_in s' f k = frame_in s1 f k).
    { intros f k KO. apply (store_all_frame l s1 s' Finished); [exact H|]. intros m n I KO'. destruct (Z.eq_dec mt m) as [->|NE]; [apply J; apply in_map_iff; exists (m, n); now split|]. exact (keys_apart za mt m k NS NE KO KO'). }
    apply store_one_done in E1. destruct E1 as (ls & L & R). exists ls. split; [exact L|]. destruct (read_matrix ls) as [| | | |b x sd cov]; try contradiction.
    + destruct R as [-> K]. split; [exact K | exact ST].
    + destruct R as (f & F & HD). exists f. split; [exact F|]. apply (holds_same s1); [intros k; apply ST | exact HD].
Qed.
End Stores.

(** ** Numbers as text *)
Local Open Scope nat_scope.
Lemma digits_uint t : forallb is_digit t = true -> exists u, t = str (DecimalString.NilEmpty.string_of_uint u).
Proof.
  induction t as [|c t IH]; intros H; [now exists Decimal.Nil|]. cbn in H. apply andb_true_iff in H as [Hc H]. destruct (IH H) as (u & ->).
  destruct c as [[] [] [] [] [] [] [] []]; try discriminate Hc;
    [exists (Decimal.D7 u) | exists (Decimal.D3 u) | exists (Decimal.D5 u) | exists (Decimal.D9 u) | exists (Decimal.D1 u) | exists (Decimal.D6 u) | exists (Decimal.D2 u) | exists (Decimal.D4 u) | exists (Decimal.D8 u) | exists (Decimal.D0 u)]; reflexivity.
Qed.
Lemma uint_dval d : dval (str (DecimalString.NilEmpty.string_of_uint d)) = N.of_uint d.
Proof.
  unfold dval. induction d; cbn [DecimalString.NilEmpty.string_of_uint str list_ascii_of_string fold_left]; [reflexivity|exact IHd|..].
  - exact (uint_dval_aux d 1).
  - exact (uint_dval_aux d 2).
  - exact (uint_dval_aux d 3).
  - exact (uint_dval_aux d 4).
  - exact (uint_dval_aux d 5).
  - exact (uint_dval_aux d 6).
  - exact (uint_dval_aux d 7).
  - exact (uint_dval_aux d 8).
  - exact (uint_dval_aux d 9).
Qed.
Lemma dec_of_digits c t : forallb is_digit (c :: t) = true -> c <> "0"%char -> decN (dval (c :: t)) = c :: t.
Proof.
  intros H N0. destruct (digits_uint _ H) as (u & E). rewrite E, uint_dval. unfold decN. rewrite DecimalN.Unsigned.to_of. do 2 f_equal.
  destruct u; try reflexivity; [discriminate E|]. cbn in E. injection E as -> _. now destruct N0.
Qed.
Lemma dec_head n c r : decN n = c :: r -> (0 < n)%N -> c <> "0"%char.
Proof.
  intros E P ->. unfold decN in E. pose proof (DecimalN.Unsigned.to_of (N.to_uint n)) as U. rewrite DecimalN.Unsigned.of_to in U.
  destruct (N.to_uint n) eqn:T; try discriminate E. clear E. unfold Decimal.unorm in U. cbn [Decimal.nzhead] in U. destruct (Decimal.nzhead u) eqn:Z; try discriminate U.
  - injection U as ->. pose proof (DecimalN.Unsigned.of_to n) as V. rewrite T in V. cbn in V. lia.
  - pose proof (DecimalFacts.nzhead_nonzero u) as W. exact (W _ Z).
Qed.
Lemma zfill_digits a : (0 <= a)%Z -> forallb is_digit (zfill3 (decZ a)) = true /\ dval (zfill3 (decZ a)) = Z.to_N a.
Proof.
  intros A. unfold zfill3. rewrite decZ_nat by exact A. rewrite dval_zeros, dval_decN. split; [|reflexivity]. rewrite forallb_app, decN_digits, andb_true_r.
  destruct (3 - _) as [|[|[|[|k]]]] eqn:E; try reflexivity. lia.
Qed.
Lemma dec_short n : (n < 1000)%N -> List.length (decN n) <= 3.
Proof.
  intros H. assert (C : forallb (fun k => List.length (decN (N.of_nat k)) <=? 3) (seq 0 1000) = true) by (vm_compute; reflexivity).
  rewrite forallb_forall in C. specialize (C (N.to_nat n)). rewrite N2Nat.id in C. apply Nat.leb_le, C, in_seq. lia.
Qed.
Lemma zaid_digits e : (0 <= e_z e)%Z -> (0 <= e_a e < 1000)%Z ->
  let t := decZ (e_z e) ++ zfill3 (decZ (e_a e)) in forallb is_digit t = true /\ t <> [] /\ Z.of_N (dval t) = (1000 * e_z e + e_a e)%Z.
Proof.
  intros Z A t. destruct (zfill_digits (e_a e)) as [D V]; [lia|]. unfold t. rewrite forallb_app, D, decZ_nat, decN_digits by exact Z. split; [reflexivity|]. split.
  - intros E. apply app_eq_nil in E. exact (decN_nonnil _ (proj1 E)).
  - rewrite dval_app, V, dval_decN. replace (List.length (zfill3 (decZ (e_a e)))) with 3; [change (10 ^ N.of_nat 3)%N with 1000%N; lia|].
    unfold zfill3. rewrite app_length, repeat_length, decZ_nat by lia. pose proof (dec_short (Z.to_N (e_a e))) as L. lia.
Qed.
Lemma zaid_value e : (0 <= e_z e)%Z -> (0 <= e_a e < 1000)%Z -> zaid e = Some (1000 * e_z e + e_a e)%Z.
Proof.
  intros Z A. destruct (zaid_digits e Z A) as (D & N & V). unfold zaid, py_int. set (t := decZ (e_z e) ++ zfill3 (decZ (e_a e))) in *.
  assert (T : trim t = t) by (rewrite <- (trim_padded 0 t 0) at 2; cbn [repeat app]; [now rewrite app_nil_r | now apply head_digit_not_space | now apply (ends_digit_not_space [])]).
  rewrite T, sign_digit, digits_all by assumption. destruct t as [|c r] eqn:E; [contradiction|]. cbn [signed]. now rewrite V.
Qed.
Lemma zaid_same_text e : (1 <= e_z e)%Z -> (0 <= e_a e < 1000)%Z -> decZ (1000 * e_z e + e_a e) = decZ (e_z e) ++ zfill3 (decZ (e_a e)).
Proof.
  intros Z A. destruct (zaid_digits e) as (D & N & V); [lia | exact A|]. set (t := decZ (e_z e) ++ zfill3 (decZ (e_a e))) in *. rewrite <- V, decZ_nat by lia. rewrite N2Z.id.
  destruct t as [|c r] eqn:E; [contradiction|]. apply dec_of_digits; [exact D|]. unfold t in E. rewrite decZ_nat in E by lia.
  destruct (decN (Z.to_N (e_z e))) as [|c' r'] eqn:E'; [exfalso; exact (decN_nonnil _ E')|]. cbn in E. injection E as <- _. apply (dec_head _ _ _ E'). lia.
Qed.

(** ** Names of stores *)
Lemma format_plain g t r : no_braces t -> format g (t ++ r) = option_map (app t) (format g r).
Proof.
  intros [L R]. induction t as [|c t IH]; cbn [app].
  - now destruct (format g r).
  - cbn [format]. destruct (eqc c "{") eqn:E1; [apply eqc_eq in E1 as ->; destruct L; now left|]. destruct (eqc c "}") eqn:E2; [apply eqc_eq in E2 as ->; destruct R; now left|].
    rewrite IH by (intros K; solve [apply L; now right | apply R; now right]). now destruct (format g r).
Qed.
Lemma decZ_plain z : no_braces (decZ z).
Proof. split; apply decZ_notin; reflexivity || discriminate. Qed.
Lemma plain_app a b : no_braces a -> no_braces b -> no_braces (a ++ b).
Proof. intros [A B] [C D]. split; intros I; apply in_app_or in I; tauto. Qed.
Lemma symbol_plain z w : symbol z = Some w -> no_braces w.
Proof.
  unfold symbol. destruct (z <? 0)%Z; [discriminate|]. intros H. apply nth_error_In in H.
  assert (C : forallb (forallb (fun c => negb (eqc c "{") && negb (eqc c "}"))) symbols = true) by (vm_compute; reflexivity).
  rewrite forallb_forall in C. apply C in H. rewrite forallb_forall in H. split; intros I; apply H in I; discriminate I.
Qed.
Lemma format_name o e fmt n f : (forall w, o_store o = Some w -> no_braces w) -> store_format o e = Some fmt -> format (decN (N.of_nat n)) fmt = Some f -> store_name o e n f.
Proof.
  intros NB. unfold store_format, store_name. destruct (o_store o) as [w|].
  - intros [= <-] H. rewrite format_plain in H by now apply NB. cbn in H. now injection H as <-.
  - destruct (symbol (e_z e)) as [w|] eqn:S1; [|discriminate]. intros [= <-] H. rewrite app_assoc in H. rewrite format_plain in H by (apply plain_app; [exact (symbol_plain _ _ S1) | apply decZ_plain]). cbn in H. injection H as <-.
    exists w. split; [now apply symbol_element|]. now rewrite <- app_assoc.
Qed.

(** ** The script *)
Lemma available_in e mt : In mt (available e) <-> In (33%Z, mt) (e_sections e).
Proof.
  unfold available. rewrite in_map_iff. split.
  - intros ([f m] & <- & I). apply filter_In in I as [I E]. cbn in *. apply Z.eqb_eq in E as ->. exact I.
  - intros I. exists (33%Z, mt). split; [reflexivity|]. apply filter_In. now split.
Qed.
Lemma all_available l e : forallb (fun m => existsb (Z.eqb m) (available e)) l = true <-> forall m, In m l -> In (33%Z, m) (e_sections e).
Proof.
  rewrite forallb_forall. split; intros H m I; specialize (H m I).
  - apply existsb_exists in H. destruct H as (y & J & E). apply Z.eqb_eq in E as <-. now apply available_in.
  - apply existsb_exists. exists m. split; [now apply available_in | apply Z.eqb_refl].
Qed.
Lemma selected_wanted o e mts : available e <> [] -> selected o e = Some mts -> wanted o e mts.
Proof.
  intros NE H. split.
  - destruct (available e) as [|m l] eqn:E; [contradiction|]. exists m. apply available_in. rewrite E. now left.
  - unfold selected in H. destruct (o_mts o) as [|m l] eqn:E.
    + injection H as <-. right. split; [reflexivity | apply available_in].
    + destruct (forallb _ _) eqn:F; [|discriminate]. injection H as <-. left. split; [discriminate|]. split; [reflexivity|]. now apply all_available.
Qed.
Lemma wanted_has o e mts mt : wanted o e mts -> In mt mts -> In (33%Z, mt) (e_sections e).
Proof. intros [_ [(_ & _ & H)|[_ H]]]; apply H. Qed.
Lemma kept_in temp mts nu chi mt name : In (mt, name) (kept temp mts nu chi) <->
  (In mt mts /\ name = covr_name "covr" temp) \/ (nu = true /\ mt = 452%Z /\ name = covr_name "covr_nu" temp) \/ (chi = true /\ mt = 1018%Z /\ name = covr_name "covr_chi" temp).
Proof.
  unfold kept. change (fun mt => (mt, _)) with (fun mt : Z => (mt, covr_name "covr" temp)). rewrite !in_app_iff, in_map_iff. split.
  - intros [(m & [= <- <-] & I)|[I|I]]; [now left|right; left|right; right].
    + destruct nu; [destruct I as [I|[]] | destruct I]. now injection I as <- <-.
    + destruct chi; [destruct I as [I|[]] | destruct I]. now injection I as <- <-.
  - intros [[I ->]|[(-> & -> & ->)|(-> & -> & ->)]]; [left; now exists mt|right; left; now left|right; right; now left].
Qed.
Lemma converted_in mts nu chi mt : In mt mts \/ (nu = true /\ mt = 452%Z) \/ (chi = true /\ mt = 1018%Z) -> In mt (converted mts nu chi).
Proof.
  unfold converted. rewrite !in_app_iff. intros [I|[[-> ->]|[-> ->]]]; [now left|right; right; left; now left|right; right; right; now left].
Qed.
Lemma asked_ok mt : asked_for mt (asked mt).
Proof. unfold asked, asked_for. destruct (Z.eqb_spec mt 1018) as [->|N]; [now left|right; now split]. Qed.

Section Script.
Variables (box : file -> file -> file) (njoy boxer : program) (known : Z -> bool) (deck endf : file) (o : options) (e : evaluation).
Hypothesis BW : boxer_writes box boxer.
Lemma generate_stored d s d' s' : (forall w, o_store o = Some w -> no_braces w) -> generate njoy boxer known deck endf o e d s = (d', s', Finished) ->
  exists mts za d0 d1, wanted o e mts /\ zaid e = Some za /\ njoy d0 deck = Some (0%Z, d1) /\ look (str "tape20") d0 = Some endf /\
    (forall k, k <> str "tape20" -> k <> str "testing_chain.txt" -> look k d0 = look k d) /\
    forall mt n, source e mts mt n -> exists f q, look (str "tape" ++ decN (N.of_nat n)) d1 = Some f /\ asked_for mt q /\
      match read_matrix (box f (request (e_mat e) q)) with
      | Data _ _ _ cov => exists name, store_name o e (List.length cov) name /\ holds s' name (decZ za) mt (box f (request (e_mat e) q))
      | BoxrError => known mt = true /\ forall f k, keys_of (decZ za) mt k -> frame_in s' f k = frame_in s f k
      | _ => False
      end.
Proof.
  intros NB H. unfold generate in H. destruct (zaid e) as [za|]; [|discriminate]. destruct (available e) as [|m0 l0] eqn:AV; [discriminate|].
  destruct (selected o e) as [mts|] eqn:SE; [|discriminate]. destruct (store_format o e) as [fmt|] eqn:SF; [|discriminate].
  destruct (run_cover_chain _ _ _ _ _ _ _ _ _ d) as [d1' [x|]] eqn:RC; [discriminate|]. destruct (store_all _ _ _ _ _ s) as [s1 r] eqn:SA. injection H as -> -> ->.
  assert (W : wanted o e mts) by (apply selected_wanted; [rewrite AV; discriminate | exact SE]).
  destruct (chain_done box _ _ _ _ _ _ _ _ _ _ _ BW RC) as (d0 & d1 & NJ & T20 & FR & MA & _). exists mts, za, d0, d1. split; [exact W|]. split; [reflexivity|]. split; [exact NJ|]. split; [exact T20|]. split; [exact FR|].
  intros mt n SO. remember (e_fissionable e) as b eqn:EB.
  assert (K : exists name, In (mt, name) (kept (o_temp o) mts b b) /\ (forall name', In (mt, name') (kept (o_temp o) mts b b) -> name' = name) /\ In (n, name) (covers (o_temp o) b b) /\ In mt (converted mts b b)).
  { unfold source in SO. rewrite <- EB in SO. destruct SO as [(I & -> & U)|[(B & I & -> & ->)|(B & I & -> & ->)]].
    - exists (covr_name "covr" (o_temp o)). split; [apply kept_in; now left|]. split; [|split; [now left | apply converted_in; now left]].
      intros name' J. apply kept_in in J. destruct J as [[_ J]|[(B & E & _)|(B & E & _)]]; [exact J|destruct (U B) as [X Y]; contradiction|destruct (U B) as [X Y]; contradiction].
    - exists (covr_name "covr_nu" (o_temp o)). split; [apply kept_in; right; left; auto|]. split; [|split; [rewrite B; right; now left | apply converted_in; right; left; auto]].
      intros name' J. apply kept_in in J. destruct J as [[J _]|[(_ & _ & J)|(_ & E & _)]]; [contradiction|exact J|discriminate].
    - exists (covr_name "covr_chi" (o_temp o)). split; [apply kept_in; right; right; auto|]. split; [|split; [rewrite B; right; right; now left | apply converted_in; right; right; auto]].
      intros name' J. apply kept_in in J. destruct J as [[J _]|[(_ & E & _)|(_ & _ & J)]]; [contradiction|discriminate|exact J]. }
  destruct K as (name & IK & UK & IC & IV). destruct (MA n name mt IC IV) as (f & F & L). exists f, (asked mt). split; [exact F|]. split; [apply asked_ok|].
  destruct (store_all_done known fmt (decZ za) d' (Store_Proofs.dec_no_slash za) _ _ _ SA mt name IK UK) as (ls & L' & R). rewrite L in L'. injection L' as <-.
  destruct (read_matrix (box f (request (e_mat e) (asked mt)))) as [| | | |bb x sd cov]; try contradiction; [exact R|]. destruct R as (g & G & HD). exists g. split; [exact (format_name o e fmt _ _ NB SF G) | exact HD].
Qed.
Lemma generate_others d s d' s' r : generate njoy boxer known deck endf o e d s = (d', s', r) ->
  forall f k, (forall za mt, zaid e = Some za -> concerns e mt -> ~ keys_of (decZ za) mt k) -> frame_in s' f k = frame_in s f k.
Proof.
  intros H f k K. unfold generate in H. destruct (zaid e) as [za|] eqn:Z; [|injection H as _ <- _; reflexivity]. destruct (available e) as [|m0 l0] eqn:AV; [injection H as _ <- _; reflexivity|].
  destruct (selected o e) as [mts|] eqn:SE; [|injection H as _ <- _; reflexivity]. destruct (store_format o e) as [fmt|] eqn:SF; [|injection H as _ <- _; reflexivity].
  destruct (run_cover_chain _ _ _ _ _ _ _ _ _ d) as [d1' [x|]] eqn:RC; [injection H as _ <- _; reflexivity|]. destruct (store_all _ _ _ _ _ s) as [s1 r1] eqn:SA. injection H as -> -> ->.
  apply (store_all_frame known fmt (decZ za) d' _ _ _ _ _ _ SA). intros mt name I. apply (K za mt eq_refl).
  apply kept_in in I. destruct I as [[I _]|[(B & -> & _)|(B & -> & _)]]; [left|right; auto|right; auto].
  apply (wanted_has o e mts); [|exact I]. apply selected_wanted; [rewrite AV; discriminate | exact SE].
Qed.
Definition early (r : ending) : bool := match r with NoZaid | NoCovariances | NotAvailable | NoSymbol => true | _ => false end.
Lemma generate_nothing d s d' s' r : generate njoy boxer known deck endf o e d s = (d', s', r) ->
  (early r = true -> d' = d /\ s' = s) /\ (forall x, r = Chain x -> s' = s).
Proof.
  intros H. unfold generate in H. destruct (zaid e) as [za|] eqn:Z; [|injection H as <- <- <-; split; [now split | discriminate]].
  destruct (available e) as [|m0 l0] eqn:AV; [injection H as <- <- <-; split; [now split | discriminate]|].
  destruct (selected o e) as [mts|] eqn:SE; [|injection H as <- <- <-; split; [now split | discriminate]]. destruct (store_format o e) as [fmt|] eqn:SF; [|injection H as <- <- <-; split; [now split | discriminate]].
  destruct (run_cover_chain _ _ _ _ _ _ _ _ _ d) as [d1' [x|]] eqn:RC; [injection H as <- <- <-; split; [discriminate | reflexivity]|].
  destruct (store_all _ _ _ _ _ s) as [s1 r1] eqn:SA. injection H as <- <- <-.
  assert (C : forall l s s' r, store_all known fmt (decZ za) d1' l s = (s', r) -> early r = false /\ forall x, r <> Chain x).
  { clear. induction l as [|[mt name] l IH]; intros s s' r H; cbn [store_all] in H; [injection H as _ <-; now split|].
    destruct (store_one known fmt (decZ za) d1' (mt, name) s) as [s1 r1] eqn:E.
    assert (B : early r1 = false /\ forall x, r1 <> Chain x).
    { unfold store_one in E. destruct (look _ d1') as [ls|]; [|injection E as _ <-; now split]. destruct (read_matrix ls);
        [.. | destruct (format _ fmt); [|injection E as _ <-; now split]; destruct (Store_Model.process _ _ _ _ _) as [? e']; injection E as _ <-; now destruct e'];
        injection E as _ <-; now destruct (snd _). }
    destruct r1; try (injection H as _ <-; exact B). exact (IH _ _ _ H). }
  destruct (C _ _ _ _ SA) as [C1 C2]. split; [rewrite C1; discriminate | intros x E; now destruct (C2 x)].
Qed.
Lemma generate_refused d s : (0 <= e_z e)%Z -> (0 <= e_a e < 1000)%Z ->
  (snd (generate njoy boxer known deck endf o e d s) = NoCovariances <-> ~ exists mt, In (33%Z, mt) (e_sections e)) /\
  (snd (generate njoy boxer known deck endf o e d s) = NotAvailable <-> (exists mt, In (33%Z, mt) (e_sections e)) /\ exists mt, In mt (o_mts o) /\ ~ In (33%Z, mt) (e_sections e)).
Proof.
  intros Z A. pose proof (zaid_value e Z A) as ZV.
  destruct (generate njoy boxer known deck endf o e d s) as [[d' s'] r] eqn:H. pose proof H as H0. unfold generate in H. rewrite ZV in H. cbn [snd].
  destruct (available e) as [|m0 l0] eqn:AV.
  - injection H as _ _ <-. assert (N : ~ exists mt, In (33%Z, mt) (e_sections e)) by (intros (mt & I); apply available_in in I; rewrite AV in I; destruct I).
    split; [split; auto|]. split; [discriminate | intros [X _]; contradiction].
  - assert (Y : exists mt, In (33%Z, mt) (e_sections e)) by (exists m0; apply available_in; rewrite AV; now left).
    destruct (selected o e) as [mts|] eqn:SE.
    + assert (X : r <> NoCovariances /\ r <> NotAvailable).
      { destruct (store_format o e) as [fmt|] eqn:SF; [|injection H as _ _ <-; now split]. destruct (run_cover_chain _ _ _ _ _ _ _ _ _ d) as [d1' [x|]]; [injection H as _ _ <-; now split|].
        destruct (store_all _ _ _ _ _ s) as [s1 r1] eqn:SA. injection H as _ _ <-.
        assert (C : forall l s s' r, store_all known fmt (decZ (1000 * e_z e + e_a e)) d1' l s = (s', r) -> r <> NoCovariances /\ r <> NotAvailable).
        { clear. induction l as [|[mt name] l IH]; intros s s' r H; cbn [store_all] in H; [injection H as _ <-; now split|].
          destruct (store_one known fmt _ d1' (mt, name) s) as [s1 r1] eqn:E.
          assert (B : r1 <> NoCovariances /\ r1 <> NotAvailable).
          { unfold store_one in E. destruct (look _ d1') as [ls|]; [|injection E as _ <-; now split]. destruct (read_matrix ls);
              [.. | destruct (format _ fmt); [|injection E as _ <-; now split]; destruct (Store_Model.process _ _ _ _ _) as [? e']; injection E as _ <-; now destruct e'];
              injection E as _ <-; now destruct (snd _). }
          destruct r1; try (injection H as _ <-; exact B). exact (IH _ _ _ H). }
        exact (C _ _ _ _ SA). }
      split; [split; [intros E; now destruct X | intros N; contradiction]|]. split; [intros E; now destruct X|]. intros [_ (mt & I & J)]. exfalso. apply J.
      unfold selected in SE. destruct (o_mts o) as [|m l]; [destruct I|]. destruct (forallb _ _) eqn:F; [|discriminate]. exact (proj1 (all_available _ _) F mt I).
    + injection H as _ _ <-. split; [split; [discriminate | intros N; contradiction]|]. split; [|reflexivity]. intros _. split; [exact Y|].
      unfold selected in SE. destruct (o_mts o) as [|m l] eqn:OM; [discriminate|]. destruct (forallb _ _) eqn:F; [discriminate|].
      apply not_true_iff_false in F. rewrite all_available in F. clear - F.
      assert (DEC : forall l', (forall m', In m' l' -> In (33%Z, m') (e_sections e)) \/ exists mt, In mt l' /\ ~ In (33%Z, mt) (e_sections e)).
      { induction l' as [|m' l' IH]; [left; intros ? []|]. destruct (in_dec (fun x y : Z * Z => ltac:(decide equality; apply Z.eq_dec)) (33%Z, m') (e_sections e)) as [I|I]; [|right; exists m'; split; [now left | exact I]].
        destruct IH as [IH|(q & I1 & I2)]; [left; intros q [<-|J]; auto | right; exists q; split; [now right | exact I2]]. }
      destruct (DEC (m :: l)) as [X|X]; [contradiction | exact X].
Qed.
End Script.

(** ** When it finishes *)
Section Works.
Variables (box : file -> file -> file) (boxer : program) (mat : Z).
Hypothesis BW : boxer_writes box boxer.
Hypothesis OK : forall d q, look fort20 d <> None -> exists d', boxer d q = Some (0%Z, d').
Lemma andthen_ok f g d d1 : f d = (d1, None) -> andthen f g d = g d1.
Proof. unfold andthen. now intros ->. Qed.
Lemma convert_ok n name mt d : look (tape n) d <> None -> exists d', convert boxer mat (n, name, mt) d = (d', None).
Proof.
  intros T. unfold convert, andthen, copy. destruct (look (tape n) d) as [f|]; [|contradiction]. unfold run_program.
  set (d1 := save log2 _ _). assert (F : look fort20 d1 = Some f) by (unfold d1; rewrite look_save_other by discriminate; apply look_save_same).
  destruct (OK d1 (request mat (asked mt))) as (d2 & B); [intros Q; assert (X : Some f = None) by (rewrite <- F; exact Q); discriminate X|]. rewrite B. cbn [Z.eqb]. destruct (BW _ _ _ _ B) as [_ W]. unfold move. change fort21 with (str "fort.21").
  rewrite (W eq_refl f F). eauto.
Qed.
Lemma each_convert_ok l : (forall n name mt, In (n, name, mt) l -> exists r, name = "c"%char :: r) -> forall d, (forall n name mt, In (n, name, mt) l -> look (tape n) d <> None) ->
  exists d', each (convert boxer mat) l d = (d', None).
Proof.
  induction l as [|[[n name] mt] l IH]; intros NM d T; [now exists d|]. destruct (convert_ok n name mt d) as (d1 & C); [apply (T n name mt); now left|]. cbn [each]. rewrite (andthen_ok _ _ _ _ C).
  destruct (convert_step box boxer mat BW _ _ _ _ _ C) as (f & _ & _ & FR & _); [apply (NM n name mt); now left|]. destruct (NM n name mt (or_introl eq_refl)) as (r & ->).
  apply IH; [intros n' name' mt' I; apply (NM n' name' mt'); now right|]. intros n' name' mt' I. rewrite FR; [apply (T n' name' mt'); now right|..]; apply tape_not; discriminate.
Qed.
End Works.
Lemma each_copies_ok l : forall d, exists d', each (fun t : nat * text => copy_if (tape (fst t)) (snd t)) l d = (d', None).
Proof.
  induction l as [|[n name] l IH]; intros d; [now exists d|]. cbn [each]. unfold andthen, copy_if. cbn [fst snd]. destruct (look (tape n) d); apply IH.
Qed.
Lemma chain_ok box njoy boxer deck endf temp mat mts nu chi d : boxer_writes box boxer -> (forall d q, look fort20 d <> None -> exists d', boxer d q = Some (0%Z, d')) ->
  (forall d, look (tape 20) d = Some endf -> exists d', njoy d deck = Some (0%Z, d') /\ look (str "output") d' <> None /\ forall n name, In (n, name) (covers temp nu chi) -> look (tape n) d' <> None) ->
  exists d', run_cover_chain njoy boxer deck endf temp mat mts nu chi d = (d', None).
Proof.
  intros BW OK NJ. unfold run_cover_chain, cover_chain. rewrite covers_picked. unfold andthen at 1 2. unfold run_program. set (d0 := save log1 _ _).
  assert (T20 : look (tape 20) d0 = Some endf) by (unfold d0; rewrite look_save_other by (apply tape_not; discriminate); apply look_save_same).
  destruct (NJ d0 T20) as (d1 & N1 & OUT & TP). rewrite N1. cbn [Z.eqb]. unfold andthen at 1. unfold copy. destruct (look (str "output") d1) as [f|]; [|contradiction]. unfold andthen.
  destruct (each_copies_ok (tapeout temp nu chi) (save (str "njoy_output.txt") f d1)) as (d3 & C). rewrite C. apply (each_convert_ok box boxer mat BW OK).
  - intros n name mt I. apply steps_in in I. exact (covers_named _ _ _ _ _ (proj1 I)).
  - intros n name mt I. apply steps_in in I. rewrite (each_copies _ _ _ C); [rewrite look_save_other by (apply tape_not; discriminate); exact (TP n name (proj1 I))|].
    intros t J E. destruct (tapeout_names _ _ _ _ J) as (q & [Q|Q]); rewrite Q in E; discriminate.
Qed.
Lemma store_one_ok known fmt za d mt name ls s : look (matrix_name name mt) d = Some ls -> storable (known mt) ls -> (forall g, format g fmt <> None) -> exists s', store_one known fmt za d (mt, name) s = (s', Finished).
Proof.
  intros L ST F. unfold store_one. rewrite L. destruct ST as [[R K]|(b & x & sd & cov & R & G2 & LB & LS & DC)]; rewrite R.
  - rewrite (proj2 (Store_Proofs.skipped_iff [] za mt (known mt) ls) (conj R K)). eauto.
  - specialize (F (decN (N.of_nat (List.length cov)))). destruct (format _ fmt) as [f|]; [|contradiction].
    destruct (Store_Model.process (match look f s with Some s0 => s0 | None => [] end) za mt (known mt) ls) as [new e] eqn:P.
    pose proof (proj2 (Store_Proofs.succeeds (match look f s with Some s0 => s0 | None => [] end) za mt (known mt) ls b x sd cov R G2) (conj LB (conj LS DC))) as D. rewrite P in D. cbn in D. subst e. eauto.
Qed.
Lemma store_all_ok known fmt za d l : (forall g, format g fmt <> None) -> (forall mt name, In (mt, name) l -> exists ls, look (matrix_name name mt) d = Some ls /\ storable (known mt) ls) ->
  forall s, exists s', store_all known fmt za d l s = (s', Finished).
Proof.
  intros F. induction l as [|[mt name] l IH]; intros H s; [now exists s|]. cbn [store_all]. destruct (H mt name (or_introl eq_refl)) as (ls & L & ST).
  destruct (store_one_ok known fmt za d mt name ls s L ST F) as (s1 & ->). apply IH. intros m n I. apply H. now right.
Qed.
Lemma format_some o e fmt g : (forall w, o_store o = Some w -> no_braces w) -> store_format o e = Some fmt -> format g fmt <> None.
Proof.
  intros NB. unfold store_format. destruct (o_store o) as [w|].
  - intros [= <-]. rewrite format_plain by now apply NB. discriminate.
  - destruct (symbol (e_z e)) as [w|] eqn:S1; [|discriminate]. intros [= <-]. rewrite app_assoc, format_plain by (apply plain_app; [exact (symbol_plain _ _ S1) | apply decZ_plain]). discriminate.
Qed.
Lemma asked_unique mt q : asked_for mt q -> q = asked mt.
Proof. unfold asked_for, asked. intros [[-> ->]|[N ->]]; [reflexivity|]. now destruct (Z.eqb_spec mt 1018). Qed.
Lemma kept_source o e mts mt name : (e_fissionable e = true -> ~ In 452%Z mts /\ ~ In 1018%Z mts) -> In (mt, name) (kept (o_temp o) mts (e_fissionable e) (e_fissionable e)) ->
  exists n, source e mts mt n /\ In (n, name) (covers (o_temp o) (e_fissionable e) (e_fissionable e)) /\ In mt (converted mts (e_fissionable e) (e_fissionable e)).
Proof.
  intros U I. apply kept_in in I. unfold source, covers. destruct I as [[I ->]|[(B & -> & ->)|(B & -> & ->)]].
  - exists 25. split; [left; split; [exact I|]; split; [reflexivity|]; intros B; destruct (U B) as [X Y]; split; intros ->; contradiction|]. split; [now left|]. apply converted_in. now left.
  - exists 32. rewrite B. destruct (U B) as [X Y]. split; [right; left; auto|]. split; [right; now left|]. apply converted_in. right; left; auto.
  - exists 36. rewrite B. destruct (U B) as [X Y]. split; [right; right; auto|]. split; [right; right; now left|]. apply converted_in. right; right; auto.
Qed.
Lemma generate_completes box njoy boxer known deck endf o e mts d s : boxer_writes box boxer -> wanted o e mts -> programs_work box njoy boxer known deck endf e mts ->
  (0 <= e_z e <= 118)%Z -> (0 <= e_a e < 1000)%Z -> (forall w, o_store o = Some w -> no_braces w) -> (e_fissionable e = true -> ~ In 452%Z mts /\ ~ In 1018%Z mts) ->
  snd (generate njoy boxer known deck endf o e d s) = Finished.
Proof.
  intros BW W [OK NJ] Z A NB U. unfold generate. rewrite zaid_value by lia.
  assert (AV : available e <> []) by (destruct W as [(m & I) _]; apply available_in in I; intros E; rewrite E in I; destruct I).
  assert (SE : exists mts', selected o e = Some mts' /\ forall m, In m mts' <-> In m mts).
  { destruct W as [_ [(N & -> & I)|[E I]]]; unfold selected.
    - destruct (o_mts o) as [|m l] eqn:OM; [contradiction|]. rewrite (proj2 (all_available (m :: l) e) I). exists (m :: l). now split.
    - rewrite E. exists (available e). split; [reflexivity|]. intros m. rewrite available_in. symmetry. apply I. }
  destruct SE as (mts' & SE & SAME). destruct (available e) as [|m0 l0]; [contradiction|]. rewrite SE.
  assert (SF : exists fmt, store_format o e = Some fmt).
  { unfold store_format. destruct (o_store o); [eauto|]. destruct (proj2 (symbol_known (e_z e)) Z) as (w & ->). cbn. eauto. }
  destruct SF as (fmt & SF). rewrite SF. set (b := e_fissionable e).
  assert (TP : forall n name, In (n, name) (covers (o_temp o) b b) -> unit e n).
  { intros n name I. unfold unit, covers, b in *. destruct (e_fissionable e); cbn in I; intuition (match goal with H : _ = _ |- _ => injection H as <- _ end; auto). }
  destruct (chain_ok box njoy boxer deck endf (o_temp o) (e_mat e) mts' b b d BW OK) as (d' & C).
  { intros dd T. destruct (NJ dd T) as (d1 & N1 & OUT & T1 & _). exists d1. split; [exact N1|]. split; [exact OUT|]. intros n name I. apply T1. exact (TP n name I). }
  rewrite C. destruct (chain_done box _ _ _ _ _ _ _ _ _ _ _ BW C) as (d0 & d1 & N1 & T20 & _ & MA & _). destruct (NJ d0 T20) as (d1' & N1' & _ & _ & STO). rewrite N1 in N1'. injection N1' as <-.
  destruct (store_all_ok known fmt (decZ (1000 * e_z e + e_a e)) d' (kept (o_temp o) mts' b b) (fun g => format_some o e fmt g NB SF)) with (s := s) as (s' & ->); [|reflexivity].
  intros mt name I. destruct (kept_source o e mts' mt name) as (n & SO & IC & IV); [|exact I|].
  { intros B. destruct (U B) as [X Y]. now rewrite !SAME. }
  destruct (MA n name mt IC IV) as (f & F & L). exists (box f (request (e_mat e) (asked mt))). split; [exact L|]. apply (STO mt n f (asked mt)); [|exact F|apply asked_ok].
  unfold source in *. now rewrite <- !SAME.
Qed.

(** ** Requests *)
Lemma field_comma t r w : ~ In comma t -> List.length t < w -> field w (t ++ comma :: r) = (t, r).
Proof.
  revert w. induction t as [|c t IH]; intros [|w] N L; cbn in L; try lia; cbn [app field].
  - reflexivity.
  - destruct (eqc c comma) eqn:E; [apply eqc_eq in E; destruct N; left; now subst|]. rewrite IH; [reflexivity | intros K; apply N; now right | lia].
Qed.
Lemma field_end t w : ~ In comma t -> List.length t <= w -> field w t = (t, []).
Proof.
  revert w. induction t as [|c t IH]; intros [|w] N L; cbn in L; try lia; cbn [field]; [reflexivity|reflexivity|].
  destruct (eqc c comma) eqn:E; [apply eqc_eq in E; destruct N; left; now subst|]. rewrite IH; [reflexivity | intros K; apply N; now right | lia].
Qed.
Lemma integer_dec z : integer (decZ z) = Some z.
Proof.
  unfold integer. destruct (forallb (eqc sp) (decZ z)) eqn:E.
  - destruct (decZ z) as [|c r] eqn:D; [now destruct (decZ_nonnil z)|]. cbn [forallb] in E. apply andb_true_iff in E as [E _]. apply eqc_eq in E. subst c. exfalso. apply (decZ_notin z sp); [reflexivity | discriminate | rewrite D; now left].
  - pose proof (py_int_dec 0 z 0) as P. cbn [repeat app] in P. now rewrite app_nil_r in P.
Qed.
Lemma dec_five z : (0 <= z < 100000)%Z -> List.length (decZ z) <= 5.
Proof.
  intros H. rewrite decZ_nat by lia. destruct (le_lt_dec (List.length (decN (Z.to_N z))) 5) as [L|L]; [exact L|]. exfalso.
  destruct (decN (Z.to_N z)) as [|c r] eqn:E; [exact (decN_nonnil _ E)|]. cbn in L.
  assert (V : dval (c :: r) = Z.to_N z) by (rewrite <- E; apply dval_decN). assert (D := decN_digits (Z.to_N z)). rewrite E in D.
  assert (P : (0 < Z.to_N z)%N). { destruct (N.eq_dec (Z.to_N z) 0) as [Q|Q]; [|lia]. rewrite Q in E. injection E as _ <-. cbn in L. lia. }
  pose proof (dec_head _ _ _ E P) as NZ. change (c :: r) with ([c] ++ r) in V. rewrite dval_app in V.
  assert (1 <= dval [c])%N. { cbn in D. apply andb_true_iff in D as [D _]. unfold dval. cbn [fold_left]. unfold digit, is_digit in *. apply andb_true_iff in D as [D1 D2]. apply Nat.leb_le in D1, D2.
    destruct (Nat.eq_dec (nat_of_ascii c) 48) as [Q|Q]; [|lia]. exfalso. apply NZ. rewrite <- (ascii_nat_embedding c), Q. reflexivity. }
  assert (10 ^ 5 <= 10 ^ N.of_nat (List.length r))%N by (apply N.pow_le_mono_r; lia). change (10 ^ 5)%N with 100000%N in *. nia.
Qed.
Lemma no_newline t : ~ In nl t -> filter (fun c => negb (eqc c nl)) t = t.
Proof.
  induction t as [|c t IH]; intros N; [reflexivity|]. cbn [filter]. destruct (eqc c nl) eqn:E; [apply eqc_eq in E; destruct N; left; now subst|]. cbn [negb]. f_equal. apply IH. intros K. apply N. now right.
Qed.
Lemma request_line_read i mat mt : (0 <= i < 100000)%Z -> (0 <= mat < 100000)%Z -> (0 <= mt < 100000)%Z -> read_request (request_line i mat mt) = Some [i; mat; mt; mat; mt].
Proof.
  intros I M T. assert (NN : forall z, ~ In nl (decZ z)) by (intros z; apply decZ_notin; [reflexivity | discriminate]). assert (NC : forall z, ~ In comma (decZ z)) by (intros z; apply decZ_notin; [reflexivity | discriminate]).
  unfold read_request, request_line. rewrite !filter_app. cbn [filter]. rewrite !filter_app. cbn [filter]. rewrite !filter_app. cbn [filter]. rewrite !filter_app. cbn [filter]. rewrite !filter_app, !no_newline by auto.
  change (negb (eqc comma nl)) with true. change (negb (eqc nl nl)) with false. cbn [filter]. rewrite app_nil_r. pose proof (dec_five i I). pose proof (dec_five mat M). pose proof (dec_five mt T).
  cbn [fields]. rewrite (field_comma (decZ i)) by (auto || lia). rewrite (field_comma (decZ mat)) by (auto || lia). rewrite (field_comma (decZ mt)) by (auto || lia). rewrite (field_comma (decZ mat)) by (auto || lia). rewrite (field_end (decZ mt)) by (auto || lia).
  now rewrite !integer_dec.
Qed.
Lemma requests_read mat mt : (0 <= mat < 100000)%Z -> (0 <= mt < 100000)%Z ->
  map read_request (request mat mt) = [Some [0; mat; mt; mat; mt]; Some [1; mat; mt; mat; mt]; Some [2; mat; mt; mat; mt]; Some [3; mat; mt; mat; mt]; Some [0; 0; 0; 0; 0]]%Z.
Proof. intros M T. unfold request. cbn [map app]. rewrite !request_line_read by lia. reflexivity. Qed.
(** What BOXER writes in answer to them. *)
Lemma answered mat mt c0 sy n m M pre p ps rest : (0 < mat < 100000)%Z -> (0 <= mt < 100000)%Z ->
  (forall i, i < 4 -> Box_Spec.sizes_ok (sy i) (n i) (m i) /\ Box_Spec.encodes (sy i) (n i) (m i) (M i) 1 (p i :: ps i) /\
     let q := Box_Model.Build_request i mat mt mat mt in Forall (Box_Spec.passed_over q) (pre i) /\ Box_Spec.accepted q (p i)) ->
  exists out, Box_Model.serve c0 (map (fun l => boxer_request (match read_request l with Some z => z | None => [] end)) (request mat mt))
      (flat_map (fun i => pre i ++ (p i :: ps i)) [0; 1; 2; 3] ++ rest) = (out, None) /\ List.length out = 4 /\
    forall i, i < 4 -> Box_Spec.lines_of (Box_Model.Build_request i mat mt mat mt) (n i) (m i) (Box_Spec.full (sy i) (M i)) (nth i out []).
Proof.
  intros MA MT H. rewrite <- (map_map read_request (fun r => boxer_request (match r with Some z => z | None => [] end))), requests_read by lia.
  cbn [map]. unfold boxer_request. cbn [nth]. change (Z.to_nat 0) with 0. change (Z.to_nat 1) with 1. change (Z.to_nat 2) with 2. change (Z.to_nat 3) with 3.
  set (q0 := {| Box_Model.ty := 0; Box_Model.mat := 0; Box_Model.mt := 0; Box_Model.mat1 := 0; Box_Model.mt1 := 0 |}).
  cbn [flat_map]. rewrite app_nil_r, <- !app_assoc.
  assert (MZ : (mat <> 0)%Z) by lia.
  destruct (H 0) as (Z0 & E0 & P0 & A0); [lia|]. destruct (H 1) as (Z1 & E1 & P1 & A1); [lia|]. destruct (H 2) as (Z2 & E2 & P2 & A2); [lia|]. destruct (H 3) as (Z3 & E3 & P3 & A3); [lia|].
  destruct (Box_Proofs.served _ _ _ _ _ _ _ _ (pre 1 ++ (p 1 :: ps 1) ++ pre 2 ++ (p 2 :: ps 2) ++ pre 3 ++ (p 3 :: ps 3) ++ rest) c0
     [Box_Model.Build_request 1 mat mt mat mt; Box_Model.Build_request 2 mat mt mat mt; Box_Model.Build_request 3 mat mt mat mt; q0] Z0 E0 P0 A0 MZ) as (C1 & o0 & L0 & S0).
  destruct (Box_Proofs.served _ _ _ _ _ _ _ _ (pre 2 ++ (p 2 :: ps 2) ++ pre 3 ++ (p 3 :: ps 3) ++ rest) C1
     [Box_Model.Build_request 2 mat mt mat mt; Box_Model.Build_request 3 mat mt mat mt; q0] Z1 E1 P1 A1 MZ) as (C2 & o1 & L1 & S1).
  destruct (Box_Proofs.served _ _ _ _ _ _ _ _ (pre 3 ++ (p 3 :: ps 3) ++ rest) C2 [Box_Model.Build_request 3 mat mt mat mt; q0] Z2 E2 P2 A2 MZ) as (C3 & o2 & L2 & S2).
  destruct (Box_Proofs.served _ _ _ _ _ _ _ _ rest C3 [q0] Z3 E3 P3 A3 MZ) as (C4 & o3 & L3 & S3).
  exists [o0; o1; o2; o3]. split; [|split; [reflexivity|]].
  - rewrite S0, S1, S2, S3. reflexivity.
  - intros [|[|[|[|i]]]] Hi; cbn [nth]; [exact L0 | exact L1 | exact L2 | exact L3 | lia].
Qed.

(** ** Units, the sampler, names *)
Definition boxer_named (n : text) : bool := eqt (skipn (List.length n - 4) n) (str ".txt").
Lemma ends_txt (s e : string) t : List.length (str e) = 4 -> boxer_named (str s ++ str "_" ++ decZ t ++ str e) = eqt (str e) (str ".txt").
Proof.
  intros L. unfold boxer_named. rewrite !app_assoc. set (u := (str s ++ str "_") ++ decZ t). rewrite app_length, L. replace (List.length u + 4 - 4) with (List.length u) by lia.
  now rewrite skipn_app, skipn_all, Nat.sub_diag.
Qed.
Lemma units nu chi iwt1 w deck t temp : Njoy_Model.make_njoy_run (Njoy_Model.cover_options 1 true nu chi iwt1 w true) = Njoy_Model.Ok (deck, t) ->
  map fst t = map fst (tapeout temp nu chi) /\ Forall2 (fun u v => snd u = Njoy_Model.Boxer <-> boxer_named (snd v) = true) t (tapeout temp nu chi).
Proof.
  intros H. destruct nu, chi, iwt1, w; vm_compute in H; try discriminate H; injection H as _ <-; (split; [reflexivity|]);
    repeat constructor; cbn [snd]; rewrite ends_txt by reflexivity; cbn; intuition discriminate.
Qed.
Lemma loadable s f mt ls z a : (1 <= z)%Z -> (0 <= a < 1000)%Z -> holds s f (decZ (1000 * z + a)) mt ls ->
  (forall b x sd cov, read_matrix ls = Data b x sd cov -> x <> []) ->
  exists st g g' c, look f s = Some st /\ frame_in s f (Store_Model.dev_key (decZ (1000 * z + a)) (decZ mt)) = Some (Store_Model.Dev g) /\
    Store_Model.load st (Run_Model.zaid_text z a) (decZ mt) = Some (g', c) /\ put_right g g'.
Proof.
  intros Z A (b & x & sd & cov & c & g & R & GC & GD & CL & _ & _ & LG & _) NE. specialize (NE _ _ _ _ R).
  pose (e := {| e_z := z; e_a := a; e_isomer := 0; e_fissionable := false; e_mat := 0; e_sections := [] |}).
  pose proof (zaid_same_text e Z A) as ZT. cbn [e e_z e_a] in ZT. change (decZ z ++ zfill3 (decZ a)) with (Run_Model.zaid_text z a) in ZT.
  unfold frame_in in *. destruct (look f s) as [st|]; [|discriminate]. exists st, g. rewrite <- ZT.
  destruct (Store_Proofs.load_any st (decZ (1000 * z + a)) (decZ mt) g c 1%R GD GC) as (g' & c' & L & PR & _).
  - intros ->. cbn in LG. destruct x; [contradiction | discriminate].
  - destruct CL as (LC & _ & CE). assert (P : 0 < List.length x) by (destruct x; [contradiction | cbn; lia]). split.
    + exists 0. rewrite LC. split; [exact P|]. destruct (CE 0 0 P P) as (r & E & _ & _ & D). now rewrite D in E.
    + intros i Li. rewrite LC in Li. destruct (CE i i Li Li) as (r & E & _ & B & _). exists r. split; [exact E | apply B].
  - apply R1_neq_R0.
  - exists g', c'. auto.
Qed.
Lemma default_names z a n z' a' n' w w' : (0 <= a)%Z -> (0 <= a')%Z -> symbol z = Some w -> symbol z' = Some w' ->
  w ++ decZ a ++ str "_" ++ decN (N.of_nat n) ++ str "g.h5" = w' ++ decZ a' ++ str "_" ++ decN (N.of_nat n') ++ str "g.h5" -> z = z' /\ a = a' /\ n = n'.
Proof.
  intros A A' S1 S2 E. rewrite !app_assoc in E. apply app_inv_tail in E. rewrite <- !app_assoc in E. change (str "_") with ["_"%char] in E. cbn [app] in E. rewrite !app_assoc in E.
  apply split_last in E; [|apply decN_notin; reflexivity|apply decN_notin; reflexivity]. destruct E as [E1 E2]. apply decN_inj in E2. apply Nat2N.inj in E2.
  assert (X : (z, a, 0%Z) = (z', a', 0%Z)); [|injection X as -> ->; auto].
  apply (names_inj z a 0 z' a' 0 (w ++ decZ a)); try lia; unfold gnd_name; [now rewrite S1 | rewrite S2; cbn; now rewrite E1].
Qed.
Lemma fission_dropped box njoy boxer known deck endf o e d s d' s' mts : boxer_writes box boxer -> e_fissionable e = true -> selected o e = Some mts -> ~ In 18%Z mts ->
  generate njoy boxer known deck endf o e d s = (d', s', Finished) ->
  look (str "covr_" ++ decZ (o_temp o) ++ str ".txt_18_matrix.txt") d' <> None /\ forall za f k, zaid e = Some za -> keys_of (decZ za) 18 k -> frame_in s' f k = frame_in s f k.
Proof.
  intros BW B SE N H. unfold generate in H. rewrite SE, B in H. destruct (zaid e) as [za|]; [|discriminate]. destruct (available e) as [|m0 l0] eqn:AV; [discriminate|].
  destruct (store_format o e) as [fmt|] eqn:SF; [|discriminate].
  destruct (run_cover_chain _ _ _ _ _ _ _ _ _ d) as [d1' [x|]] eqn:RC; [discriminate|]. destruct (store_all _ _ _ _ _ s) as [s1 r] eqn:SA. injection H as -> -> ->. split.
  - destruct (chain_done box _ _ _ _ _ _ _ _ _ _ _ BW RC) as (d0 & d1 & _ & _ & _ & MA & _).
    destruct (MA 25 (covr_name "covr" (o_temp o)) 18%Z) as (f & _ & L); [now left | |].
    + unfold converted. destruct (existsb (Z.eqb 18) mts) eqn:E; [apply existsb_exists in E; destruct E as (y & I & E); apply Z.eqb_eq in E as <-; contradiction|].
      rewrite !in_app_iff. right. left. now left.
    + replace (str "covr_" ++ decZ (o_temp o) ++ str ".txt_18_matrix.txt") with (matrix_name (covr_name "covr" (o_temp o)) 18); [rewrite L; discriminate|].
      unfold matrix_name, covr_name. rewrite <- !app_assoc. reflexivity.
  - intros za' f k [= <-] K. apply (store_all_frame known fmt (decZ za) d' _ _ _ _ _ _ SA). intros mt name I K'. apply kept_in in I.
    apply (keys_apart (decZ za) 18 mt k (Store_Proofs.dec_no_slash za)); [|exact K|exact K']. destruct I as [[I _]|[(_ & -> & _)|(_ & -> & _)]]; [intros <-; contradiction | discriminate | discriminate].
Qed.
