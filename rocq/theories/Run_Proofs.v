(** Proofs about whole runs. *)
From Verif Require Import Num XNum Text Dec Chi_Model AceEdit_Model AceEdit_Spec AceEdit_Proofs AceEdit2_Proofs MapGroups_Model MapGroups_Spec AceText_Model
  Sampler_Model Sampler_Spec Sampler_Proofs Mpi_Model Mpi_Spec Mpi_Proofs Samp_Model Samp_Spec Samp_Proofs Wr_Model Wr_Spec Wr_Proofs Run_Model Run_Spec.
From Verif Require Store_Model.
From Coq Require Import ZArith NArith Permutation.
Local Open Scope list_scope.
Local Open Scope nat_scope.

(** ** Which samples are kept *)
Definition ones (n : nat) : list xnum := repeat (Fin 1%Qc) n.
Definition clean_cell (x : xnum) : bool := match x with Fin q => qleb 0 q | _ => false end.
Definition cleanb (s : list xnum) : bool := forallb clean_cell s.
Lemma cleanb_clean s : cleanb s = true <-> clean s.
Proof.
  unfold cleanb, clean. rewrite forallb_forall. split; intros H x I; specialize (H x I).
  - unfold clean_cell in H. destruct x as [q| | |]; try discriminate. exists q. split; [reflexivity|]. destruct (qleb_spec 0 q); [assumption | discriminate].
  - destruct H as (q & -> & L). cbn. destruct (qleb_spec 0 q); [reflexivity | contradiction].
Qed.
Lemma nth_good_iff ss : forall n s, nth_good ss n s <-> nth_error (filter cleanb ss) n = Some s.
Proof.
  induction ss as [|x ss IH]; intros n s; cbn [filter].
  - split; [inversion 1 | destruct n; discriminate].
  - destruct (cleanb x) eqn:E.
    + assert (C : clean x) by now apply cleanb_clean. split.
      * inversion 1; subst; [reflexivity | now apply IH | contradiction].
      * destruct n as [|n]; cbn; [intros [= <-]; now constructor | intros H; constructor; [exact C | now apply IH]].
    + assert (C : ~ clean x) by (rewrite <- cleanb_clean; congruence). split.
      * inversion 1; subst; [contradiction | contradiction | now apply IH].
      * intros H. apply ng_dropped; [exact C | now apply IH].
Qed.
Lemma nth_ones n k : k < n -> nth k (ones n) NaN = Fin 1%Qc.
Proof. intros H. unfold ones. revert k H. induction n as [|n IH]; intros k H; [lia|]. destruct k; [reflexivity|]. cbn. apply IH. lia. Qed.
Lemma div1 q : (q / 1 = q)%Qc.
Proof. field. discriminate. Qed.
Lemma xdiv1 q : xdiv (Fin q) (Fin 1%Qc) = Fin q.
Proof. cbn. now rewrite div1. Qed.
Lemma good_clean n s : length s = n -> (forall x, In x s -> exists q, x = Fin q) -> goodb (ones n) s = cleanb s.
Proof.
  intros L F. apply Bool.eq_iff_eq_true. rewrite goodb_good, cleanb_clean. unfold good, rel_value. unfold ones at 1. rewrite repeat_length. split.
  - intros H x I. destruct (F x I) as [q ->]. exists q. split; [reflexivity|]. apply In_nth with (d := NaN) in I. destruct I as (k & K & E). specialize (H k ltac:(lia)).
    rewrite E, nth_ones, xdiv1 in H by lia. cbn in H. destruct (qltb_spec q 0); [discriminate | now apply Qcnot_lt_le].
  - intros H k K. assert (I : In (nth k s NaN) s) by (apply nth_In; lia). destruct (H _ I) as (q & -> & P). rewrite nth_ones, xdiv1 by exact K. cbn. destruct (qltb_spec q 0) as [N|]; [|reflexivity].
    exfalso. now apply (Qcle_not_lt _ _ P).
Qed.
Lemma filter_ext_in {A} (p q : A -> bool) l : (forall x, In x l -> p x = q x) -> filter p l = filter q l.
Proof. induction l as [|x l IH]; intros H; cbn; [reflexivity|]. rewrite (H x) by now left. rewrite IH; [reflexivity|]. intros y I. apply H. now right. Qed.

(** ** The table of factors *)
Lemma find_label (rs : list (nat * list xnum)) : forall k b, (forall i, i < length rs -> fst (nth i rs (0, [])) = b + i) -> k < length rs ->
  find (fun r => Z.eqb (Z.of_nat (fst r)) (Z.of_nat (b + k))) rs = Some (nth k rs (0, [])).
Proof.
  induction rs as [|r rs IH]; intros k b H K; cbn [length] in K; [lia|]. cbn [find].
  pose proof (H 0 ltac:(cbn; lia)) as H0. cbn in H0. rewrite H0. destruct k as [|k].
  - rewrite Nat.add_0_r, Z.eqb_refl. reflexivity.
  - destruct (Z.eqb_spec (Z.of_nat (b + 0)) (Z.of_nat (b + S k))) as [E|_]; [lia|]. replace (b + S k) with (S b + k) by lia. cbn [nth]. apply IH; [|lia].
    intros i I. specialize (H (S i) ltac:(cbn; lia)). cbn in H. rewrite H. lia.
Qed.
Lemma position_seq n : forall k b, k < n -> position (b + k) (seq b n) = Some k.
Proof.
  induction n as [|n IH]; intros k b H; [lia|]. cbn [seq position]. destruct (Nat.eqb_spec b (b + k)) as [E|E].
  - assert (k = 0) by lia. now subst.
  - destruct k as [|k]; [lia|]. replace (b + S k) with (S b + k) by lia. rewrite IH by lia. reflexivity.
Qed.
Lemma position_out n : forall k b, b + n <= k -> position k (seq b n) = None.
Proof. induction n as [|n IH]; intros k b H; [reflexivity|]. cbn [seq position]. destruct (Nat.eqb_spec b k) as [E|E]; [lia|]. rewrite IH by lia. reflexivity. Qed.

Lemma xsec_table draw st num cr d (g : list Store_Model.group) ss : In (lower st, (cr, d)) the_kinds -> draw cr d num = ss -> real_draws num (length g) ss ->
  (forall r, In r g -> exists q, Store_Model.xsec r = Fin q /\ q <> 0%Qc) ->
  exists rel full, sample_xsec draw (map Store_Model.xsec g) st num false true = SOk (rel, full) /\
    cols rel = seq 0 (length (filter cleanb ss)) /\
    forall n s, nth_error (filter cleanb ss) n = Some s -> exists c, column rel (N.of_nat n) = Some c /\
      forall k, k < length g -> exists q, c (Z.of_nat (S k)) = Some q /\ right_factor g s k q.
Proof.
  intros KD DR (LN & RD) FM. set (mean := map Store_Model.xsec g). set (dr := fun (_ : bool) (_ : dist) (_ : nat) => ss).
  assert (LM : length mean = length g) by apply map_length.
  assert (RG : regular (ones (length mean)) ss).
  { split.
    - intros k K. unfold ones in K. rewrite repeat_length in K. exists 1%Qc. split; [now apply nth_ones | discriminate].
    - intros s k I K. unfold ones in K. rewrite repeat_length, LM in K. destruct (RD s I) as [L F]. apply F. apply nth_In. lia. }
  assert (FE : filter (goodb (ones (length mean))) ss = filter cleanb ss).
  { apply filter_ext_in. intros s I. destruct (RD s I) as [L F]. apply good_clean; [congruence | exact F]. }
  set (kp := filter cleanb ss) in *.
  set (full := {| cols := seq 0 (length kp); rows := map (row_of (ones (length mean)) kp) (seq 0 (length mean)) |}).
  assert (SA : forall dw, dw cr d num = ss -> sample dw mean st num false true false false = SOk full).
  { intros dw E. rewrite (sample_eq dw mean st num false true false false cr d (choose_kind _ _ _ KD)). cbv zeta. rewrite Bool.andb_false_r, E.
    fold (ones (length mean)). rewrite check_cols_length. destruct (check_keeps ss (ones (length mean))) as [_ R]. rewrite R. rewrite FE. fold kp. rewrite (regular_no_nan _ ss RG) by (intros s I; unfold kp in I; now apply filter_In in I).
    unfold ones at 2. rewrite repeat_length. reflexivity. }
  set (rel := patch_nan (sample_check (columns full) mean false) full).
  assert (SX : forall dw, dw cr d num = ss -> sample_xsec dw mean st num false true = SOk (rel, full)).
  { intros dw E. unfold sample_xsec. rewrite (SA dw E). cbn [rows full]. rewrite map_length, seq_length, Nat.eqb_refl. reflexivity. }
  exists rel, full. split; [now apply SX|]. split; [cbn [cols rel patch_nan sample_check rel_frame]; rewrite columns_length; cbn [full cols]; now rewrite seq_length|].
  intros n s NS. assert (NL : n < length kp) by (apply nth_error_Some; congruence).
  assert (CR : cols rel = seq 0 (length kp)) by (cbn [cols rel patch_nan sample_check rel_frame]; rewrite columns_length; cbn [full cols]; now rewrite seq_length).
  unfold column. rewrite Nat2N.id, CR. change n with (0 + n) at 1. rewrite position_seq by exact NL. eexists. split; [reflexivity|]. intros k K.
  destruct (xsec_shape dr mean st num false true rel full ltac:(now intros) (SX dr eq_refl)) as (_ & _ & LR & _ & _).
  change (Z.of_nat (S k)) with (Z.of_nat (1 + k)). rewrite (find_label (rows rel) k 1); [| |lia].
  2:{ intros i I. rewrite LR in I. cbn [rel patch_nan rows sample_check rel_frame]. rewrite (nth_map_lt _ _ i ((0, []), (0, []))) by (rewrite combine_length, map_length, seq_length; cbn [full rows]; rewrite map_length, seq_length; lia).
      rewrite List.combine_nth by (cbn [full rows]; rewrite !map_length; reflexivity). cbn [fst]. rewrite (nth_map_lt _ _ i 0) by now rewrite seq_length. rewrite seq_nth by exact I. reflexivity. }
  fold (cell rel k n). rewrite (xsec_cell dr mean st num false true rel full k n ltac:(now intros) (SX dr eq_refl)); [|lia|cbn [full cols]; now rewrite seq_length].
  assert (CF : exists x, cell full k n = Fin x /\ nth_error s k = Some (Fin x)).
  { assert (IS : In s ss) by (apply nth_error_In in NS; unfold kp in NS; now apply filter_In in NS). destruct (RD s IS) as [L F]. assert (IK : In (nth k s NaN) s) by (apply nth_In; lia). destruct (F _ IK) as [x X]. exists x.
    split; [|rewrite <- X; apply nth_error_nth'; lia]. unfold cell. cbn [full rows]. rewrite (nth_map_lt _ _ k 0) by (rewrite seq_length; lia). rewrite seq_nth by lia. cbn [row_of snd Nat.add].
    rewrite (nth_map_lt _ _ n []) by exact NL. rewrite (nth_error_nth _ _ [] NS). unfold rel_value. rewrite X, nth_ones by lia. apply xdiv1. }
  destruct CF as (x & CF & XS). assert (KG : exists r, nth_error g k = Some r) by (destruct (nth_error g k) eqn:E; [eauto | apply nth_error_None in E; lia]). destruct KG as [r KG].
  destruct (FM r (nth_error_In _ _ KG)) as (q & Q & NZ).
  assert (NM : nth k mean NaN = Fin q) by (unfold mean; rewrite (nth_map_lt _ _ k r) by exact K; now rewrite (nth_error_nth _ _ r KG)).
  rewrite CF, NM. cbv zeta. cbn [xdiv]. rewrite (proj2 (qeqb_neq q 0%Qc) NZ). cbn [xisnan]. exists (x / q)%Qc. split; [reflexivity|]. exists r, q, x. repeat split; auto. field. exact NZ.
Qed.

(** ** Writing never fails *)
Lemma replace_pairs_some {A} (P : A) fmt w ps count : (forall b d, In (b, d) ps -> length b = length d) -> exists x, replace_pairs fmt w ps count = Some x.
Proof.
  revert w. induction ps as [|[b d] ps IH]; intros w H; cbn [replace_pairs]; [eauto|]. unfold replace_array. rewrite (H b d) by now left. rewrite Nat.eqb_refl. cbn [negb].
  assert (H' : forall b d, In (b, d) ps -> length b = length d) by (intros; apply H; now right).
  destruct (index _ _); [|eauto]. destruct (firstn _ _); apply IH; auto.
Qed.
Lemma write_mts_some fmt t s ms : (forall m, In m ms -> exists ps, pairs t s m = Some ps /\ forall b d, In (b, d) ps -> length b = length d) -> forall w, exists w', write_mts fmt t s w ms = Some w'.
Proof.
  induction ms as [|m ms IH]; intros H w; cbn [write_mts]; [eauto|]. destruct (H m (or_introl eq_refl)) as (ps & -> & L). destruct (replace_pairs_some tt fmt w ps (max_replaces m) L) as [[w' b] ->]. apply IH. intros; apply H; now right.
Qed.
Lemma sample_text_some fmt t rs f w : wf_table t -> NoDup (map rq_mt rs) ->
  (forall r, In r rs -> rq_mt r <> 1018%Z /\ exists r0 lo v, rdata t (rq_mt r) = Some r0 /\ length (ty r0) = length (tx r0) /\ good_groups r lo v /\ ~ In lo (tx r0)) ->
  read_ace f = Some w -> exists out, sample_text fmt t rs f = Some out.
Proof.
  intros W ND H RA. destruct (file_succeeds t rs W ND H) as [s SF]. unfold sample_text. rewrite SF. unfold write_one. rewrite RA.
  assert (X : forall m, In m (sorted (adjusted s)) -> exists ps, pairs t s m = Some ps /\ forall b d, In (b, d) ps -> length b = length d).
  { intros m I. apply (Permutation_in m (Permutation_sym (sorted_perm _))) in I. destruct (file_run t rs s W ND SF) as (ws & F2 & E).
    assert (T : touched t (hist ws) m).
    { subst s. revert m I. apply (adjusted_touched t (hist ws) (touched t (hist ws)) (open_editor t) W (Inv_open t W)).
      - intros sm m P K T. exact (touched_sum t _ sm m P K T).
      - intros m v K. exact (touched_set t _ m v K).
      - intros m []. }
    pose proof (Inv_reach t (hist ws) W) as IV. rewrite <- E in IV. apply touched_above in T. destruct T as (m' & I' & A). rewrite (ws_fst rs ws _ _ F2) in I'. apply in_map_iff in I'. destruct I' as (r & EQ & IR). destruct (H r IR) as (N8 & r0 & lo & v & RD & L & GG & NI).
    assert (N18 : m <> 1018%Z) by (inversion A as [|? p P]; subst; [exact N8 | unfold part_of in P; lia]).
    unfold pairs. rewrite (proj2 (Z.eqb_neq _ _) N18). rewrite get_rdata by exact N18.
    destruct (Z.eq_dec m 452) as [E4|E4].
    - assert (EM : rq_mt r = m) by (inversion A as [|? p P]; subst; [congruence | unfold part_of in P; lia]).
      assert (AL : alone t rs r) by (intros r' _ D A'; rewrite EM, E4 in A'; inversion A' as [EQ'|? p P]; [apply D; congruence | unfold part_of in P; lia]).
      destruct (file_values t rs s r r0 lo v W ND SF IR AL N8 RD L GG NI) as (ys & _ & GS & LY & _). rewrite EM in RD, GS. rewrite RD, GS. cbn [option_map].
      eexists. split; [reflexivity|]. intros b d [[= <- <-]|[]]. congruence.
    - assert (K : In m (map fst (reactions t))).
      { destruct (inv_adj_all t s IV m I) as [J|[J|J]]; [|congruence|congruence]. rewrite (inv_all t s IV) in J. now apply all_in_keys in J. }
      assert (K' : In m (map fst (reactions (cur s)))) by now rewrite (inv_keys t s IV).
      assert (LK : exists rx, lookup m (reactions (cur s)) = Some rx).
      { clear - K'. induction (reactions (cur s)) as [|[k x] l IH]; [destruct K'|]. cbn in *. destruct (Z.eqb_spec m k); [eauto|]. destruct K'; [congruence | auto]. }
      destruct LK as [rx LK]. destruct (inv_shape t s IV m rx LK) as (r1 & L1 & TX & LY). unfold rdata, get_sigma. rewrite (proj2 (Z.eqb_neq _ _) E4). unfold tabm. rewrite LK, L1. cbn [option_map].
      destruct (wf_lookup t m r1 W L1) as (_ & _ & _ & W1). eexists. split; [reflexivity|]. intros b d [[= <- <-]|[]]. congruence. }
  destruct (write_mts_some fmt t s (sorted (adjusted s)) X w) as [w' ->]. cbn. eauto.
Qed.

(** ** From the arguments to the requests *)
Lemma chosen_asked a st ms : asked a st ms -> chosen a st = Some ms.
Proof. unfold chosen. intros [[N ->]|[-> H]]; [|exact H]. now destruct (a_mts a). Qed.
Lemma offered_in t m : In m (all_mts (open_editor t)) <-> offered t m.
Proof.
  cbn [open_editor all_mts]. unfold offered. rewrite in_app_iff. destruct (mem 18 (map fst (reactions t))) eqn:E.
  - apply mem_In in E. cbn. intuition auto.
  - assert (N : ~ In 18%Z (map fst (reactions t))) by (rewrite <- mem_In; congruence). cbn. intuition auto.
Qed.
Lemma adjustable_kept t ms adj : kept (offered t) ms adj -> adjustable t ms = adj.
Proof.
  unfold adjustable. induction 1 as [|m ms adj P _ IH|m ms adj P _ IH]; cbn [filter]; [reflexivity| |].
  - rewrite (proj2 (mem_In _ _)) by now apply offered_in. now rewrite IH.
  - destruct (mem m (all_mts (open_editor t))) eqn:E; [|exact IH]. apply mem_In, offered_in in E. contradiction.
Qed.

Definition right_table (G : Z -> list Store_Model.group) (SS : Z -> list (list xnum)) (m : Z) (x : sampled_mt) : Prop :=
  sm_mt x = m /\ sm_groups x = G m /\ cols (sm_table x) = seq 0 (length (filter cleanb (SS m))) /\
  forall n s, nth_error (filter cleanb (SS m)) n = Some s -> exists c, column (sm_table x) (N.of_nat n) = Some c /\
    forall k, k < length (G m) -> exists q, c (Z.of_nat (S k)) = Some q /\ right_factor (G m) s k q.
Lemma sample_all_right draw a st zaid G SS cr d : In (lower (a_dist a), (cr, d)) the_kinds -> forall adj,
  (forall x, In x adj -> exists c, Store_Model.load st zaid (decZ x) = Some (G x, c) /\ SS x = draw (G x) c cr d (a_num a)) ->
  (forall x, In x adj -> real_draws (a_num a) (length (G x)) (SS x)) ->
  (forall x, In x adj -> forall r, In r (G x) -> exists q, Store_Model.xsec r = Fin q /\ q <> 0%Qc) ->
  exists l, sample_all draw a st zaid adj = Some l /\ Forall2 (right_table G SS) adj l.
Proof.
  intros KD. induction adj as [|m adj IH]; intros H1 H2 H3; cbn [sample_all]; [exists []; split; [reflexivity | constructor]|].
  destruct (H1 m (or_introl eq_refl)) as (c & LD & DR).
  destruct (xsec_table (draw (G m) c) (a_dist a) (a_num a) cr d (G m) (SS m) KD (eq_sym DR) (H2 m (or_introl eq_refl)) (H3 m (or_introl eq_refl))) as (rel & full & SX & C1 & C2).
  unfold sample_one. rewrite LD, SX. destruct IH as (l & -> & F); [intros; apply H1; now right | intros; apply H2; now right | intros x I; apply H3; now right|].
  eexists. split; [reflexivity|]. constructor; [|exact F]. repeat split; assumption.
Qed.
Lemma requests_right G SS n : forall adj l, Forall2 (right_table G SS) adj l -> (forall m, In m adj -> exists s, nth_good (SS m) n s) ->
  exists rs, requests l (N.of_nat n) = Some rs /\ Forall2 (right_request G SS n) adj rs.
Proof.
  induction 1 as [|m x adj l (E1 & E2 & _ & C) _ IH]; intros H; cbn [requests]; [exists []; split; [reflexivity | constructor]|].
  destruct (H m (or_introl eq_refl)) as [s NG]. destruct (C n s (proj1 (nth_good_iff _ _ _) NG)) as (c & -> & CK). destruct IH as (rs & -> & F); [intros; apply H; now right|].
  eexists. split; [reflexivity|]. constructor; [|exact F]. unfold right_request. cbn [rq_mt rq_high rq_low rq_col]. rewrite E2. repeat split; auto. exists s. split; [exact NG | exact CK].
Qed.
Lemma right_mts G SS n adj rs : Forall2 (right_request G SS n) adj rs -> map rq_mt rs = adj.
Proof. induction 1 as [|m r adj rs [E _] _ IH]; cbn; [reflexivity|]. now rewrite E, IH. Qed.
Lemma right_in G SS n adj rs r : Forall2 (right_request G SS n) adj rs -> In r rs -> exists m, In m adj /\ right_request G SS n m r.
Proof. induction 1 as [|m r' adj rs E _ IH]; intros I; [destruct I|]. destruct I as [->|I]; [exists m; split; [now left | exact E]|]. destruct (IH I) as (m' & I' & E'). exists m'. split; [now right | exact E']. Qed.
(** The factors as a function of the group number. *)
Lemma right_groups G SS n m r lo : good_data (G m) lo -> right_request G SS n m r ->
  exists s v, nth_good (SS m) n s /\ good_groups r lo v /\ forall k, k < length (G m) -> right_factor (G m) s k (v (S k)).
Proof.
  intros (NE & DC & LO & IL & MI & _) (E1 & E2 & E3 & s & NG & CK). exists s, (fun k => match rq_col r (Z.of_nat k) with Some q => q | None => 0%Qc end). split; [exact NG|]. split.
  - unfold good_groups. rewrite E2, E3, map_length. split; [destruct (G m); [congruence | discriminate]|]. repeat split; auto. intros g L. destruct g as [|k]; [lia|]. destruct (CK k ltac:(lia)) as (q & Q & _). now rewrite Q.
  - intros k K. destruct (CK k K) as (q & -> & R). exact R.
Qed.

(** ** The whole run *)
Section Whole.
Variable fmt : Qc -> text.
Variable csv : sampled_mt -> list text.
Variable draw : list Store_Model.group -> list (list Store_Model.ext) -> bool -> dist -> nat -> list (list xnum).
Lemma prepare_sampled a st t z m adj G SS : fit_run draw a st t z m adj G SS ->
  exists l, prepare draw a st t z m = Sampled l /\ Forall2 (right_table G SS) adj l.
Proof.
  intros [OV WR WF (ms & AS & KP) SO ON SG (cr & d & KD & ST) DR DA EN].
  destruct (sample_all_right draw a st (zaid_text z m) G SS cr d KD adj ST DR) as (l & SA & F).
  { intros x I. destruct (DA x I) as (r0 & lo & _ & _ & (_ & _ & _ & _ & _ & GD) & _). exact GD. }
  exists l. split; [|exact F]. unfold prepare, samples_to_make. rewrite (chosen_asked a st ms AS), (adjustable_kept t ms adj KP).
  assert (Z.ltb (if Z.eqb (a_over a) (-1) then Z.of_nat (a_num a) else a_over a) (Z.of_nat (a_num a)) = false) as ->.
  { apply Z.ltb_ge. unfold enough in OV. destruct (Z.eqb_spec (a_over a) (-1)); lia. }
  destruct adj as [|x adj]; [congruence|]. now rewrite SA, WR.
Qed.
Lemma run_requests a st t z m adj G SS f w l n : fit_run draw a st t z m adj G SS -> read_ace f = Some w -> Forall2 (right_table G SS) adj l ->
  (exists s, nth_good (SS (hd 0%Z adj)) n s) -> exists rs out, Forall2 (right_request G SS n) adj rs /\ requests l (N.of_nat n) = Some rs /\ sample_text fmt t rs f = Some out.
Proof.
  intros FR RA F (s & NG). destruct (requests_right G SS n adj l F) as (rs & RQ & FQ).
  { intros x I. exact (fit_enough _ _ _ _ _ _ _ _ _ FR x n s I NG). }
  destruct (sample_text_some fmt t rs f w) as (out & O).
  - exact (fit_table _ _ _ _ _ _ _ _ _ FR).
  - rewrite (right_mts _ _ _ _ _ FQ). exact (fit_once _ _ _ _ _ _ _ _ _ FR).
  - intros r I. destruct (right_in _ _ _ _ _ _ FQ I) as (x & IX & RR). pose proof RR as (EX & _). rewrite EX. split; [intros E; subst x; rewrite E in IX; exact (fit_sigma _ _ _ _ _ _ _ _ _ FR IX)|].
    destruct (fit_data _ _ _ _ _ _ _ _ _ FR x IX) as (r0 & lo & R0 & L & GD & NI). destruct (right_groups G SS n x r lo GD RR) as (s' & v & _ & GG & _). exists r0, lo, v. split; [exact R0|]. split; [exact L|]. split; [exact GG | exact NI].
  - exact RA.
  - exists rs, out. auto.
Qed.
Lemma run_files a st t z m adj G SS f w symbol size sched fs0 n : fit_run draw a st t z m adj G SS -> read_ace f = Some w -> 0 < size ->
  interleave (run_programs fmt csv draw a st t f symbol z m size) sched ->
  let name := str "./" ++ symbol ++ decZ m ++ str "_" ++ decN (N.of_nat n) in
  ((exists s, nth_good (SS (hd 0%Z adj)) n s) -> exists rs out, Forall2 (right_request G SS n) adj rs /\ sample_text fmt t rs f = Some out /\ exec fs0 sched name = Some out) /\
  (~ (exists s, nth_good (SS (hd 0%Z adj)) n s) -> exec fs0 sched name = fs0 name).
Proof.
  intros FR RA SZ IL name. destruct (prepare_sampled a st t z m adj G SS FR) as (l & PR & F). unfold run_programs in IL. rewrite PR in IL. unfold write_programs in IL.
  assert (EN : name = sample_name (prefix_of symbol m) (N.of_nat n)) by (unfold name, sample_name, prefix_of; now rewrite <- !app_assoc).
  set (mk := content fmt t f l) in *. set (cs := map _ l) in IL. set (ns := sample_numbers l) in *.
  assert (NS : ns = map N.of_nat (seq 0 (length (filter cleanb (SS (hd 0%Z adj)))))).
  { unfold ns, sample_numbers. destruct F as [|x y adj l (_ & _ & C & _) _]; [exfalso; exact (fit_some _ _ _ _ _ _ _ _ _ FR eq_refl)|]. cbn [hd]. now rewrite C. }
  assert (MK : forall k, (exists s, nth_good (SS (hd 0%Z adj)) k s) -> exists rs out, Forall2 (right_request G SS k) adj rs /\ sample_text fmt t rs f = Some out /\ mk (N.of_nat k) = Some [out]).
  { intros k H. destruct (run_requests a st t z m adj G SS f w l k FR RA F H) as (rs & out & FQ & RQ & O). exists rs, out. split; [exact FQ|]. split; [exact O|]. unfold mk, content. now rewrite RQ, O. }
  assert (INN : forall k, In (N.of_nat k) ns <-> exists s, nth_good (SS (hd 0%Z adj)) k s).
  { intros k. rewrite NS, in_map_iff. split.
    - intros (j & E & I). apply Nat2N.inj in E. subst j. apply in_seq in I. destruct (nth_error (filter cleanb (SS (hd 0%Z adj))) k) as [s|] eqn:E; [exists s; now apply nth_good_iff | apply nth_error_None in E; lia].
    - intros (s & NG). exists k. split; [reflexivity|]. apply in_seq. apply nth_good_iff in NG. assert (k < length (filter cleanb (SS (hd 0%Z adj)))) by (apply nth_error_Some; congruence). lia. }
  assert (CO : complete mk ns).
  { intros k I. assert (I' := I). rewrite <- (N2Nat.id k) in I'. apply INN in I'. destruct (MK _ I') as (rs & out & _ & _ & E). rewrite N2Nat.id in E. congruence. }
  assert (ND : NoDup ns).
  { rewrite NS. apply FinFun.Injective_map_NoDup; [intros x y; apply Nat2N.inj | apply seq_NoDup]. }
  rewrite EN. split.
  - intros H. destruct (MK n H) as (rs & out & FQ & O & E). exists rs, out. split; [exact FQ|]. split; [exact O|].
    rewrite (parallel_is_serial (prefix_of symbol m) mk cs size ns sched fs0 _ CO ND SZ IL).
    rewrite (serial_content (prefix_of symbol m) mk cs ns fs0 (N.of_nat n) [out] CO ND (proj2 (INN n) H) E). cbn. now rewrite app_nil_r.
  - intros H. rewrite (parallel_is_serial (prefix_of symbol m) mk cs size ns sched fs0 _ CO ND SZ IL).
    rewrite (exec_filter _ _ fs0 fs0 eq_refl). change (serial (prefix_of symbol m) mk cs ns) with (nth 0 (programs (prefix_of symbol m) mk cs 1 ns) []).
    rewrite other_ops_of_rank; auto.
    + rewrite csv_ops_sample. destruct (_ =? _); reflexivity.
    + intros k I E. apply sample_name_inj in E. subst k. apply H. now apply INN.
Qed.
Lemma run_values a st t z m adj G SS f w symbol size sched fs0 n x r0 lo : fit_run draw a st t z m adj G SS -> read_ace f = Some w -> 0 < size ->
  interleave (run_programs fmt csv draw a st t f symbol z m size) sched -> (exists s, nth_good (SS (hd 0%Z adj)) n s) ->
  In x adj -> (forall x', In x' adj -> x' <> x -> ~ above t x' x) ->
  rdata t x = Some r0 -> length (ty r0) = length (tx r0) -> good_data (G x) lo -> ~ In lo (tx r0) ->
  exists s out, exec fs0 sched (str "./" ++ symbol ++ decZ m ++ str "_" ++ decN (N.of_nat n)) = Some out /\ write_one fmt t s f = Some out /\
  exists smp v ys, nth_good (SS x) n smp /\ (forall k, k < length (G x) -> right_factor (G x) smp k (v (S k))) /\
    get_energy s x = Some (tx r0) /\ get_sigma s x None false = Some ys /\ length ys = length (tx r0) /\
    forall i, i < length (tx r0) -> scaled_by (map Store_Model.e_high (G x)) lo v (nth i (tx r0) 0%Qc) (nth i (ty r0) 0%Qc) (nth i ys 0%Qc).
Proof.
  intros FR RA SZ IL NG IX AL RD LT GD NI. destruct (run_files a st t z m adj G SS f w symbol size sched fs0 n FR RA SZ IL) as [H _]. destruct (H NG) as (rs & out & FQ & O & EX). clear H.
  unfold sample_text in O. destruct (sample_file t rs) as [s|] eqn:SF; [|discriminate]. exists s, out. split; [exact EX|]. split; [exact O|].
  assert (RX : exists r, In r rs /\ right_request G SS n x r).
  { clear - FQ IX. induction FQ as [|y r adj rs E _ IH]; [destruct IX|]. destruct IX as [->|I]; [exists r; split; [now left | exact E]|]. destruct (IH I) as (r' & I' & E'). exists r'. split; [now right | exact E']. }
  destruct RX as (r & IR & RR). destruct (right_groups G SS n x r lo GD RR) as (smp & v & NS & GG & RF). destruct RR as (E1 & E2 & _).
  assert (AR : alone t rs r).
  { intros r' I' D. destruct (right_in _ _ _ _ _ _ FQ I') as (x' & IX' & E' & _). rewrite E1, E' in *. now apply AL. }
  destruct (file_values t rs s r r0 lo v (fit_table _ _ _ _ _ _ _ _ _ FR) ltac:(rewrite (right_mts _ _ _ _ _ FQ); exact (fit_once _ _ _ _ _ _ _ _ _ FR)) SF IR AR) as (ys & GE & GS & LY & SV); try (rewrite ?E1; auto; fail).
  { rewrite E1. intros E. subst x. rewrite E in IX. exact (fit_sigma _ _ _ _ _ _ _ _ _ FR IX). }
  exists smp, v, ys. rewrite E1 in GE, GS. repeat split; auto. intros i I. destruct (SV i I) as (q & Q1 & Q2). exists q. rewrite <- E2. auto.
Qed.

Lemma sample_all_none a st zaid adj x : In x adj -> Store_Model.load st zaid (decZ x) = None -> sample_all draw a st zaid adj = None.
Proof.
  intros I L. induction adj as [|y adj IH]; [destruct I|]. cbn [sample_all]. destruct I as [->|I].
  - unfold sample_one. now rewrite L.
  - rewrite (IH I). now destruct (sample_one draw a st zaid y).
Qed.
Lemma interleave_empty size : forall sched, interleave (repeat [] size) sched -> sched = [].
Proof.
  intros sched H. remember (repeat [] size) as ps eqn:E. destruct H as [|ps1 o p ps2 s H]; [reflexivity|]. exfalso.
  assert (I : In (o :: p) (repeat [] size)) by (rewrite <- E; apply in_or_app; right; now left). apply repeat_spec in I. discriminate.
Qed.
Lemma run_nothing a st t z m ms adj f symbol size sched fs0 : asked a st ms -> kept (offered t) ms adj ->
  ~ enough a \/ adj = [] \/ (exists x, In x adj /\ Store_Model.load st (zaid_text z m) (decZ x) = None) \/ a_plot_only a = true ->
  interleave (run_programs fmt csv draw a st t f symbol z m size) sched -> exec fs0 sched = fs0.
Proof.
  intros AS KP H IL. assert (E : run_programs fmt csv draw a st t f symbol z m size = repeat [] size).
  { unfold run_programs, prepare. rewrite (chosen_asked a st ms AS), (adjustable_kept t ms adj KP). unfold samples_to_make.
    match goal with |- context [Z.ltb ?x ?y] => destruct (Z.ltb_spec x y) as [LT|GE] end; [reflexivity|].
    destruct H as [H|[->|[(x & I & L)|P]]].
    - exfalso. apply H. unfold enough. destruct (Z.eqb_spec (a_over a) (-1)); lia.
    - reflexivity.
    - destruct adj as [|y adj]; [destruct I|]. now rewrite (sample_all_none a st _ _ x I L).
    - destruct adj as [|y adj]; [reflexivity|]. rewrite P. now destruct (sample_all _ _ _ _ _). }
  rewrite E in IL. now rewrite (interleave_empty size sched IL).
Qed.
Lemma run_over a a' st t z m f symbol size : same_but_over a a' -> enough a -> enough a' ->
  run_programs fmt csv draw a st t f symbol z m size = run_programs fmt csv draw a' st t f symbol z m size.
Proof.
  intros (E1 & E2 & E3 & E4) N N'. unfold run_programs. replace (prepare draw a st t z m) with (prepare draw a' st t z m); [reflexivity|].
  unfold prepare, samples_to_make, chosen. rewrite E1.
  assert (X : forall b, enough b -> Z.ltb (if Z.eqb (a_over b) (-1) then Z.of_nat (a_num b) else a_over b) (Z.of_nat (a_num b)) = false).
  { intros b B. unfold enough in B. apply Z.ltb_ge. destruct (Z.eqb_spec (a_over b) (-1)); lia. }
  rewrite (X a N), (X a' N'). assert (SA : forall l, sample_all draw a st (zaid_text z m) l = sample_all draw a' st (zaid_text z m) l).
  { induction l as [|x l IH]; cbn [sample_all]; [reflexivity|]. rewrite IH. unfold sample_one. now rewrite E2, E3. }
  destruct (match a_mts a' with [] => _ | _ => _ end) as [ms|]; [|reflexivity]. destruct (adjustable t ms); [reflexivity|]. now rewrite SA, E4.
Qed.
End Whole.
