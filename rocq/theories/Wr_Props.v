(** C59: the text of a sampled file. *)
From Verif Require Import Num Text Chi_Model AceEdit_Model AceEdit_Spec AceEdit_Examples AceText_Model AceText_Spec MapGroups_Spec Samp_Model Samp_Spec Samp_Props Wr_Model Wr_Spec Wr_Proofs.
From Coq Require Import ZArith Permutation Sorted.
Local Open Scope list_scope.
Local Open Scope nat_scope.

(** Each sampled (or kept in step) reaction found first at its own place when its turn
    comes: the written file reads back with the header of the evaluated one, as many
    words, at the place of every reaction the words of its current values, and all other
    words as evaluated. *)
Theorem C59_sampled : forall (fmt : Qc -> text) t rs s f n pos ms bs, sample_file t rs = Some s ->
  (forall v, e11 (fmt v)) -> blanks_only f -> header_count (lines f) = Some n -> n < length (lines f) -> Forall (fun x => length x < 20) (data_words n f) ->
  (forall m r0 i, m <> 1018%Z -> rdata t m = Some r0 -> pos m = Some i -> held (data_words n f) i (map fmt (ty r0))) ->
  (forall m m' r0 r0' i i' j, m <> m' -> rdata t m = Some r0 -> rdata t m' = Some r0' -> pos m = Some i -> pos m' = Some i' -> ~ (i <= j < i + length (ty r0) /\ i' <= j < i' + length (ty r0'))) ->
  Permutation ms (adjusted s) -> StronglySorted Z.lt ms ->
  Forall2 (fun m b => m <> 1018%Z /\ exists r0 d, rdata t m = Some r0 /\ get_sigma s m None false = Some d /\ b_at b = pos m /\ b_old b = map fmt (ty r0) /\ b_new b = map fmt d /\ (b_all b = true <-> m = 452%Z)) ms bs ->
  in_turn (data_words n f) bs ->
  exists out w', sample_text fmt t rs f = Some out /\ read_ace out = Some w' /\ header w' = firstn n (lines f) /\ length (words (single w')) = length (data_words n f) /\
    (forall m r0 i, m <> 1018%Z -> rdata t m = Some r0 -> pos m = Some i -> exists d, get_sigma s m None false = Some d /\ held (words (single w')) i (map fmt d)) /\
    (forall j, (forall m r0 i, rdata t m = Some r0 -> pos m = Some i -> ~ (i <= j < i + length (ty r0))) -> nth_error (words (single w')) j = nth_error (data_words n f) j).
Proof. exact sampled_written. Qed.
Print Assumptions C59_sampled.

(** The same for any edited table, the spectrum included: the blocks are rewritten in
    the order of the reaction numbers, a reaction's list of arrays until one is missing. *)
Theorem C59_words : forall (fmt : Qc -> text) t s f n ms bss, (forall v, e11 (fmt v)) -> blanks_only f -> header_count (lines f) = Some n -> n < length (lines f) ->
  NoDup (adjusted s) -> Permutation ms (adjusted s) -> StronglySorted Z.lt ms ->
  Forall2 (blocks fmt t s) ms bss -> in_turn (data_words n f) (concat (map upto bss)) -> Forall (fun x => length x < 20) (data_words n f) ->
  exists out w', write_one fmt t s f = Some out /\ read_ace out = Some w' /\ header w' = firstn n (lines f) /\
    words (single w') = rewritten (data_words n f) (concat (map upto bss)).
Proof.
  intros fmt t s f n ms bss H1 H2 H3 H4 ND PM SS. rewrite (sorted_unique ms (sorted (adjusted s)) SS (sorted_sorted _ ND)) by (rewrite PM; apply sorted_perm). now apply write_home.
Qed.
Print Assumptions C59_words.

(** What rewriting blocks that do not overlap means. *)
Theorem C59_blocks : forall ws bs, in_turn ws bs -> ForallOrdPairs apart bs ->
  length (rewritten ws bs) = length ws /\
  (forall b i, In b bs -> b_at b = Some i -> held (rewritten ws bs) i (b_new b)) /\
  (forall j, (forall b, In b bs -> ~ inside b j) -> nth_error (rewritten ws bs) j = nth_error ws j).
Proof.
  intros ws bs T A. split; [now apply rewritten_length|]. split; [intros b i I B; now apply rewritten_block|]. intros j N. now apply rewritten_nth.
Qed.
Print Assumptions C59_blocks.

(** Printed numbers without sign and with two digits of exponent are never met inside
    other words, if the file has only such numbers and integers. *)
Theorem C59_fenced : forall old ws, Forall (fun x => length x = 17 /\ In "."%char x) old -> old <> [] ->
  Forall (fun x => length x = 17 \/ ~ In "."%char x) ws -> fenced old ws.
Proof. exact fenced_numbers. Qed.
Print Assumptions C59_fenced.

(** ** A file *)
Definition dg (z : Z) : ascii := ascii_of_nat (48 + Z.to_nat (z mod 10)).
(** A printer of fractions of small numbers. *)
Definition fx (v : Qc) : text := [dg (Qnum (this v))] ++ str "." ++ str "000000000" ++ [dg (Qnum (this v) / 10)] ++ [dg (Zpos (Qden (this v)))] ++ str "E+00".
Lemma fx_e11 v : e11 (fx v).
Proof.
  assert (D : forall z, digit (dg z)).
  { intros z. unfold digit, dg. assert (B : (0 <= z mod 10 < 10)%Z) by (apply Z.mod_pos_bound; lia). remember (Z.to_nat (z mod 10)) as k eqn:K. assert (k < 10) by lia. clear - H.
    rewrite nat_ascii_embedding by lia. lia. }
  assert (D0 : digit "0"%char) by (unfold digit; cbn; lia).
  exists [], (dg (Qnum (this v))), (str "000000000" ++ [dg (Qnum (this v) / 10)] ++ [dg (Zpos (Qden (this v)))]), "+"%char, (str "00").
  split; [unfold fx; now rewrite <- !app_assoc|]. split; [now left|]. split; [apply D|]. split; [apply Forall_app; split; [repeat (constructor; [exact D0|]); constructor | constructor; [apply D | constructor; [apply D | constructor]]]|].
  split; [reflexivity|]. split; [now left|]. split; [repeat (constructor; [exact D0|]); constructor | now left].
Qed.
Definition wx_head : text := concat (repeat (str "92235.70c 233 hdr" ++ [nl]) 12).
Definition wx_file (ws : list text) : text := wx_head ++ concat (map (fun w => sp :: sp :: w ++ [nl]) ws).
(** The table of C57's example in a file: integers, nu-bar, the reactions with words
    between them; 51 has no place. *)
Definition wx_words : list text :=
  str "12" :: map fx (ql [2; 3]%Z) ++ map fx (ql [30; 33; 37; 52]%Z) ++ str "7" :: map fx (ql [20; 20; 20; 20]%Z) ++ map fx (ql [3; 7; 22]%Z) ++
  map fx (ql [0; 7]%Z) ++ str "99" :: map fx (ql [5; 5; 5; 5]%Z) ++ [str "0"].
Definition wx_pos (m : Z) : option nat :=
  if Z.eqb m 452 then Some 1 else if Z.eqb m 1 then Some 3 else if Z.eqb m 2 then Some 8 else if Z.eqb m 4 then Some 12 else if Z.eqb m 52 then Some 15 else if Z.eqb m 102 then Some 18 else None.
Definition wx_rs : list request := [sx_req 52 (qc 1 2) (qz 2) (qz 3); sx_req 102 (qc 1 2) (qz 2) (qz 1); sx_req 452 (qc 1 2) (qz 3) (qz 2)].
Definition wx_block (t : table) (s : editor) (m : Z) : block :=
  mkBlock (wx_pos m) (match rdata t m with Some r0 => map fx (ty r0) | None => [] end) (match get_sigma s m None false with Some d => map fx d | None => [] end) (Z.eqb m 452).
Example C59_hypotheses_met : exists s, let f := wx_file wx_words in let ms := [1; 4; 52; 102; 452]%Z in
  sample_file sx_table wx_rs = Some s /\ blanks_only f /\ header_count (lines f) = Some 12 /\ 12 < length (lines f) /\ data_words 12 f = wx_words /\
  Forall (fun x => length x < 20) (data_words 12 f) /\
  (forall m r0 i, m <> 1018%Z -> rdata sx_table m = Some r0 -> wx_pos m = Some i -> held (data_words 12 f) i (map fx (ty r0))) /\
  (forall m m' r0 r0' i i' j, m <> m' -> rdata sx_table m = Some r0 -> rdata sx_table m' = Some r0' -> wx_pos m = Some i -> wx_pos m' = Some i' -> ~ (i <= j < i + length (ty r0) /\ i' <= j < i' + length (ty r0'))) /\
  Permutation ms (adjusted s) /\ StronglySorted Z.lt ms /\
  Forall2 (fun m b => m <> 1018%Z /\ exists r0 d, rdata sx_table m = Some r0 /\ get_sigma s m None false = Some d /\ b_at b = wx_pos m /\ b_old b = map fx (ty r0) /\ b_new b = map fx d /\ (b_all b = true <-> m = 452%Z))
    ms (map (wx_block sx_table s) ms) /\
  in_turn (data_words 12 f) (map (wx_block sx_table s) ms).
Proof.
  assert (E : exists s, sample_file sx_table wx_rs = Some s) by (eexists; vm_compute; reflexivity). destruct E as [s E].
  assert (D : data_words 12 (wx_file wx_words) = wx_words) by (apply eqw_eq; vm_compute; reflexivity).
  exists s. cbv zeta. split; [exact E|]. split; [apply blanksb_only; vm_compute; reflexivity|]. split; [vm_compute; reflexivity|]. split; [apply Nat.ltb_lt; vm_compute; reflexivity|]. split; [exact D|]. rewrite D.
  split; [apply Forall_forall; intros x I; assert (K : forallb (fun x => length x <? 20) wx_words = true) by (vm_compute; reflexivity); rewrite forallb_forall in K; now apply Nat.ltb_lt, K|].
  split.
  { intros m r0 i _ R P. apply heldb_held. unfold wx_pos in P.
    repeat match type of P with (if Z.eqb m ?k then _ else _) = _ => destruct (Z.eqb_spec m k) as [->|_]; [injection P as <-; vm_compute in R; injection R as <-; vm_compute; reflexivity|] end. discriminate. }
  split.
  { assert (L : forall m r0 i, rdata sx_table m = Some r0 -> wx_pos m = Some i -> (m = 452%Z /\ i = 1 /\ length (ty r0) = 2) \/ (m = 1%Z /\ i = 3 /\ length (ty r0) = 4) \/ (m = 2%Z /\ i = 8 /\ length (ty r0) = 4) \/
      (m = 4%Z /\ i = 12 /\ length (ty r0) = 3) \/ (m = 52%Z /\ i = 15 /\ length (ty r0) = 2) \/ (m = 102%Z /\ i = 18 /\ length (ty r0) = 4)).
    { intros m r0 i R P. unfold wx_pos in P.
      repeat match type of P with (if Z.eqb m ?k then _ else _) = _ => destruct (Z.eqb_spec m k) as [->|_]; [injection P as <-; vm_compute in R; injection R as <-; cbn; intuition|] end. discriminate. }
    intros m m' r0 r0' i i' j N R R' P P'. pose proof (L _ _ _ R P). pose proof (L _ _ _ R' P'). lia. }
  unfold sample_file in E.
  assert (AD : adjusted s = [52; 4; 1; 102; 452]%Z) by (vm_compute in E; injection E as <-; reflexivity).
  split.
  { rewrite AD. apply NoDup_Permutation; [repeat (constructor; [cbn; intuition discriminate|]); constructor | repeat (constructor; [cbn; intuition discriminate|]); constructor|]. intros x. cbn. intuition. }
  split; [repeat (constructor; [|repeat (constructor; [lia|]); constructor]); constructor|]. split.
  { vm_compute in E. injection E as <-. repeat (constructor; [split; [discriminate|]; eexists _, _; split; [vm_compute; reflexivity|]; split; [vm_compute; reflexivity|]; split; [reflexivity|]; split; [vm_compute; reflexivity|]; split; [vm_compute; reflexivity|]; cbn; split; intros Q; (discriminate || reflexivity)|]). constructor. }
  apply in_turnb_turn. vm_compute in E. injection E as <-. vm_compute. reflexivity.
Qed.

(** A spectrum of two distributions after a reaction. *)
Definition wc_table : table :=
  {| reactions := [(18%Z, mkTab (ql [1; 4]%Z) (ql [6; 8]%Z)); (102%Z, mkTab (ql [1; 4]%Z) (ql [5; 4]%Z))]; nu := None;
     chi := Some [mkDist (ql [0; 1; 2]%Z) [qc 0 1000000; qc 1 2; qc 1 2] [0%Qc; qc 1 2; 1%Qc]; mkDist (ql [0; 1; 4]%Z) [qc 0 1000000; qc 1 4; qc 1 4] [0%Qc; qc 1 4; 1%Qc]] |}.
Definition wc_rs : list request := [mkReq 1018 (ql [10; 2]%Z) [qz 2; qc 1 2] (two (qz 3) (qz 1)); sx_req 102 (qc 1 2) (qz 2) (qz 3)].
Definition wc_fx (v : Qc) : text := if qltb (qz 1000) v then fx (v / qz 1000000)%Qc else fx (v / qz 2)%Qc.
Lemma wc_fx_e11 v : e11 (wc_fx v).
Proof. unfold wc_fx. destruct (qltb _ _); apply fx_e11. Qed.
Definition wc_block (i : option nat) (p : list Qc * list Qc) : block := mkBlock i (map wc_fx (fst p)) (map wc_fx (snd p)) false.
(** 102 first, then both pdfs, then the first cdf; the second one is not in the file. *)
Definition wc_words (s : editor) : list text :=
  match pairs wc_table s 102, pairs wc_table s 1018 with
  | Some [a], Some [p1; p2; c1; c2] => str "5" :: map wc_fx (fst a) ++ map wc_fx (fst p1) ++ map wc_fx (fst c1) ++ str "8" :: map wc_fx (fst p2) ++ [str "1"]
  | _, _ => []
  end.
Definition wc_blocks (s : editor) : list (list block) :=
  match pairs wc_table s 102, pairs wc_table s 1018 with
  | Some [a], Some [p1; p2; c1; c2] => [[wc_block (Some 1) a]; [wc_block (Some 3) p1; wc_block (Some 10) p2; wc_block (Some 6) c1; wc_block None c2]]
  | _, _ => []
  end.
Example C59_words_hypotheses_met : exists s, sample_file wc_table wc_rs = Some s /\ let f := wx_file (wc_words s) in
  blanks_only f /\ header_count (lines f) = Some 12 /\ 12 < length (lines f) /\ data_words 12 f = wc_words s /\ length (wc_words s) = 14 /\
  NoDup (adjusted s) /\ Permutation [102; 1018]%Z (adjusted s) /\ Forall2 (blocks wc_fx wc_table s) [102; 1018]%Z (wc_blocks s) /\
  in_turn (data_words 12 f) (concat (map upto (wc_blocks s))) /\ Forall (fun x => length x < 20) (data_words 12 f) /\ ForallOrdPairs apart (concat (map upto (wc_blocks s))).
Proof.
  assert (E : exists s, sample_file wc_table wc_rs = Some s) by (eexists; vm_compute; reflexivity). destruct E as [s E]. exists s. split; [exact E|]. cbv zeta.
  assert (D : data_words 12 (wx_file (wc_words s)) = wc_words s) by (apply eqw_eq; vm_compute in E; injection E as <-; vm_compute; reflexivity).
  rewrite D. assert (AD : adjusted s = [1018; 102]%Z) by (vm_compute in E; injection E as <-; reflexivity). rewrite AD.
  split; [apply blanksb_only; vm_compute in E; injection E as <-; vm_compute; reflexivity|]. split; [vm_compute in E; injection E as <-; vm_compute; reflexivity|].
  split; [apply Nat.ltb_lt; vm_compute in E; injection E as <-; vm_compute; reflexivity|]. split; [reflexivity|]. split; [vm_compute in E; injection E as <-; vm_compute; reflexivity|].
  split; [repeat (constructor; [cbn; intuition discriminate|]); constructor|]. split; [apply perm_swap|]. split; [|split; [|split]].
  - assert (A1 : exists a, pairs wc_table s 102 = Some [a] /\ get_sigma (open_editor wc_table) 102 None false = Some (fst a) /\ get_sigma s 102 None false = Some (snd a)).
    { vm_compute in E. injection E as <-. eexists. split; [vm_compute; reflexivity|]. split; vm_compute; reflexivity. }
    assert (A2 : exists x1 x2 y1 y2, chi wc_table = Some [x1; x2] /\ chi (cur s) = Some [y1; y2] /\ mem 18 (all_mts s) = true /\
      pairs wc_table s 1018 = Some [(per_mev (dp x1), per_mev (dp y1)); (per_mev (dp x2), per_mev (dp y2)); (dc x1, dc y1); (dc x2, dc y2)]).
    { vm_compute in E. injection E as <-. eexists _, _, _, _. split; [reflexivity|]. split; [reflexivity|]. split; [reflexivity|]. vm_compute. reflexivity. }
    destruct A1 as ([a1 a2] & P1 & G1 & G2). destruct A2 as (x1 & x2 & y1 & y2 & C1 & C2 & M & P2). unfold wc_blocks. rewrite P1, P2. cbn [fst snd] in G1, G2.
    constructor; [|constructor; [|constructor]].
    + exists [(a1, a2)]. split; [left; split; [discriminate|]; exists a1, a2; auto|]. constructor; [|constructor]. cbn. repeat split; discriminate.
    + eexists. split.
      * right. split; [reflexivity|]. split; [now apply mem_In|]. exists [x1; x2], [y1; y2]. split; [exact C1|]. split; [exact C2|]. split; [reflexivity|].
        exists [(per_mev (dp x1), per_mev (dp y1)); (per_mev (dp x2), per_mev (dp y2))], [(dc x1, dc y1); (dc x2, dc y2)]. split; [reflexivity|]. split; [reflexivity|]. split; [reflexivity|].
        intros [|[|i]] x y X Y; cbn in X, Y; try (injection X as <-; injection Y as <-; split; reflexivity). destruct i; discriminate.
      * cbn [app]. repeat (constructor; [cbn; repeat split; discriminate|]). constructor.
  - apply in_turnb_turn. vm_compute in E. injection E as <-. vm_compute. reflexivity.
  - apply Forall_forall; intros x I. assert (K : forallb (fun x => length x <? 20) (wc_words s) = true) by (vm_compute in E; injection E as <-; vm_compute; reflexivity). rewrite forallb_forall in K. now apply Nat.ltb_lt, K.
  - vm_compute in E. injection E as <-.
    repeat (apply FOP_cons; [repeat (apply Forall_cons; [intros j; vm_compute; intros [J1 J2]; lia|]); apply Forall_nil|]). apply FOP_nil.
Qed.

(** ** What is not true without these conditions *)
(** Reactions of a table in the words of a file. *)
Definition laid (fmt : Qc -> text) (t : table) (ws : list text) (pos : Z -> option nat) : Prop :=
  (forall m r0, rdata t m = Some r0 -> exists i, pos m = Some i /\ held ws i (map fmt (ty r0))) /\
  (forall m m' r0 r0' i i' j, m <> m' -> rdata t m = Some r0 -> rdata t m' = Some r0' -> pos m = Some i -> pos m' = Some i' -> ~ (i <= j < i + length (ty r0) /\ i' <= j < i' + length (ty r0'))).
Definition wi_table : table :=
  {| reactions := [(51%Z, mkTab (ql [1; 4]%Z) (ql [5; 6]%Z)); (102%Z, mkTab (ql [1; 4]%Z) (ql [5; 6]%Z))]; nu := Some (mkTab (ql [1; 9]%Z) (ql [2; 3]%Z)); chi := None |}.
Definition wi_words : list text := str "5" :: map fx (ql [5; 6]%Z) ++ str "8" :: map fx (ql [5; 6]%Z) ++ map fx (ql [2; 3]%Z).
Definition wi_pos (m : Z) : option nat := if Z.eqb m 51 then Some 1 else if Z.eqb m 102 then Some 4 else if Z.eqb m 452 then Some 6 else None.
Lemma rdata_list t m r0 : rdata t m = Some r0 -> (m = 452%Z /\ nu t = Some r0) \/ In (m, r0) (reactions t).
Proof.
  unfold rdata. destruct (Z.eqb_spec m 452) as [->|_]; [auto|]. intros H. right. induction (reactions t) as [|[k v] l IH]; [discriminate|]. cbn in H. destruct (Z.eqb_spec m k) as [->|_]; [injection H as ->; now left | right; auto].
Qed.
(** A check for concrete files. *)
Definition entries (t : table) : list (Z * tab) := (match nu t with Some r => [(452%Z, r)] | None => [] end) ++ reactions t.
Definition laidb (fmt : Qc -> text) (t : table) (ws : list text) (pos : Z -> option nat) : bool :=
  forallb (fun p => match pos (fst p) with Some i => heldb ws i (map fmt (ty (snd p))) | None => false end) (entries t) &&
  forallb (fun p => forallb (fun q => Z.eqb (fst p) (fst q) ||
    match pos (fst p), pos (fst q) with Some i, Some i' => (i + length (ty (snd p)) <=? i') || (i' + length (ty (snd q)) <=? i) | _, _ => true end) (entries t)) (entries t).
Lemma laidb_laid fmt t ws pos : laidb fmt t ws pos = true -> laid fmt t ws pos.
Proof.
  unfold laidb. rewrite andb_true_iff, !forallb_forall. intros [H1 H2].
  assert (I : forall m r0, rdata t m = Some r0 -> In (m, r0) (entries t)) by (intros m r0 R; unfold entries; apply in_or_app; apply rdata_list in R as [[-> R]|R]; [left; rewrite R; now left | now right]).
  split.
  - intros m r0 R. specialize (H1 _ (I _ _ R)). cbn [fst snd] in H1. destruct (pos m) as [i|]; [|discriminate]. exists i. split; [reflexivity | now apply heldb_held].
  - intros m m' r0 r0' i i' j N R R' P P'. specialize (H2 _ (I _ _ R)). rewrite forallb_forall in H2. specialize (H2 _ (I _ _ R')). cbn [fst snd] in H2. rewrite P, P' in H2.
    destruct (Z.eqb_spec m m'); [contradiction|]. cbn [orb] in H2. apply orb_true_iff in H2 as [H2|H2]; apply Nat.leb_le in H2; lia.
Qed.
(** "Only the block of the sampled reaction changes": with equal values the first block
    in the file does, here that of 51 when 102 is sampled. *)
Theorem C59_equal_values_refuted : exists fmt t rs s f n pos out w', (forall v, e11 (fmt v)) /\ blanks_only f /\ header_count (lines f) = Some n /\ laid fmt t (data_words n f) pos /\
  map rq_mt rs = [102%Z] /\ sample_file t rs = Some s /\ sample_text fmt t rs f = Some out /\ read_ace out = Some w' /\
  exists i j d, pos 51%Z = Some i /\ pos 102%Z = Some j /\ get_sigma s 102 None false = Some d /\ get_sigma s 51 None false <> Some d /\
    held (words (single w')) i (map fmt d) /\ ~ held (words (single w')) j (map fmt d).
Proof.
  exists fx, wi_table, [sx_req 102 (qc 1 2) (qz 2) (qz 3)]. eexists. exists (wx_file wi_words), 12, wi_pos. eexists _, _.
  split; [exact fx_e11|]. split; [apply blanksb_only; vm_compute; reflexivity|]. split; [vm_compute; reflexivity|].
  assert (D : data_words 12 (wx_file wi_words) = wi_words) by (apply eqw_eq; vm_compute; reflexivity). rewrite D. split; [|split; [reflexivity|]].
  - apply laidb_laid. vm_compute. reflexivity.
  - split; [vm_compute; reflexivity|]. split; [vm_compute; reflexivity|]. split; [vm_compute; reflexivity|].
    eexists _, _, _. split; [reflexivity|]. split; [reflexivity|]. split; [vm_compute; reflexivity|]. split; [vm_compute; congruence|]. split; [apply heldb_held; vm_compute; reflexivity|]. rewrite <- heldb_held. vm_compute. discriminate.
Qed.
Print Assumptions C59_equal_values_refuted.

(** "Sampling nu-bar changes only nu-bar": every array equal to it is replaced. *)
Definition wn_table : table :=
  {| reactions := [(18%Z, mkTab (ql [1; 4]%Z) (ql [6; 7]%Z)); (102%Z, mkTab (ql [1; 4]%Z) (ql [2; 3]%Z))]; nu := Some (mkTab (ql [1; 9]%Z) (ql [2; 3]%Z)); chi := None |}.
Definition wn_words : list text := str "5" :: map fx (ql [2; 3]%Z) ++ str "8" :: map fx (ql [6; 7]%Z) ++ map fx (ql [2; 3]%Z).
Definition wn_pos (m : Z) : option nat := if Z.eqb m 452 then Some 1 else if Z.eqb m 18 then Some 4 else if Z.eqb m 102 then Some 6 else None.
Theorem C59_nu_refuted : exists fmt t rs s f n pos out w', (forall v, e11 (fmt v)) /\ blanks_only f /\ header_count (lines f) = Some n /\ laid fmt t (data_words n f) pos /\
  map rq_mt rs = [452%Z] /\ sample_file t rs = Some s /\ sample_text fmt t rs f = Some out /\ read_ace out = Some w' /\
  exists i d d', pos 102%Z = Some i /\ get_sigma s 102 None false = Some d /\ get_sigma s 452 None false = Some d' /\ d <> d' /\ held (words (single w')) i (map fmt d') /\ ~ held (words (single w')) i (map fmt d).
Proof.
  exists fx, wn_table, [sx_req 452 (qc 1 2) (qz 2) (qz 3)]. eexists. exists (wx_file wn_words), 12, wn_pos. eexists _, _.
  split; [exact fx_e11|]. split; [apply blanksb_only; vm_compute; reflexivity|]. split; [vm_compute; reflexivity|].
  assert (D : data_words 12 (wx_file wn_words) = wn_words) by (apply eqw_eq; vm_compute; reflexivity). rewrite D. split; [apply laidb_laid; vm_compute; reflexivity|]. split; [reflexivity|].
  split; [vm_compute; reflexivity|]. split; [vm_compute; reflexivity|]. split; [vm_compute; reflexivity|].
  eexists _, _, _. split; [reflexivity|]. split; [vm_compute; reflexivity|]. split; [vm_compute; reflexivity|]. split; [intros Q; apply (f_equal (map this)) in Q; vm_compute in Q; discriminate|]. split; [apply heldb_held; vm_compute; reflexivity|]. rewrite <- heldb_held. vm_compute. discriminate.
Qed.
Print Assumptions C59_nu_refuted.

(** "The written file has the sampled values or an error is raised": values printed in
    another way are not found, and the evaluated file is written. *)
Definition wf_words : list text := str "5" :: map str ["5.0E+00"; "6.0E+00"]%string ++ [str "8"].
Theorem C59_missing_refuted : exists fmt t rs s f n out w', (forall v, e11 (fmt v)) /\ blanks_only f /\ header_count (lines f) = Some n /\
  sample_file t rs = Some s /\ (exists m d, In m (map rq_mt rs) /\ get_sigma s m None false = Some d /\ get_sigma s m None true <> Some d) /\
  sample_text fmt t rs f = Some out /\ read_ace out = Some w' /\ words (single w') = data_words n f.
Proof.
  exists fx, wi_table, [sx_req 102 (qc 1 2) (qz 2) (qz 3)]. eexists. exists (wx_file wf_words), 12. eexists _, _.
  split; [exact fx_e11|]. split; [apply blanksb_only; vm_compute; reflexivity|]. split; [vm_compute; reflexivity|]. split; [vm_compute; reflexivity|].
  split; [|split; [vm_compute; reflexivity|split; [vm_compute; reflexivity | apply eqw_eq; vm_compute; reflexivity]]].
  exists 102%Z. eexists. split; [now left|]. split; [vm_compute; reflexivity|]. intros Q. apply (f_equal (option_map (map this))) in Q. vm_compute in Q. discriminate.
Qed.
Print Assumptions C59_missing_refuted.

(** "A spectrum is rewritten as a whole or not at all": when one array is not found, those
    before it are rewritten and those after it are not. *)
Definition wp_words (s : editor) : list text :=
  match pairs wc_table s 102, pairs wc_table s 1018 with
  | Some [a], Some [p1; p2; c1; c2] => str "5" :: map wc_fx (fst a) ++ map wc_fx (fst p1) ++ str "8" :: map wc_fx (fst p2) ++ map wc_fx (fst c2)
  | _, _ => []
  end.
Theorem C59_spectrum_refuted : exists fmt t rs s f n out w' p p' c c', (forall v, e11 (fmt v)) /\ blanks_only f /\ header_count (lines f) = Some n /\
  sample_file t rs = Some s /\ sample_text fmt t rs f = Some out /\ read_ace out = Some w' /\
  (exists ps, arrays t s 1018 ps /\ In (p, p') ps /\ In (c, c') ps) /\ map fmt p <> map fmt p' /\ map fmt c <> map fmt c' /\
  (exists i, held (data_words n f) i (map fmt p) /\ held (words (single w')) i (map fmt p')) /\
  (exists i, held (data_words n f) i (map fmt c) /\ held (words (single w')) i (map fmt c)) /\ (forall i, ~ held (words (single w')) i (map fmt c')).
Proof.
  assert (E : exists s, sample_file wc_table wc_rs = Some s) by (eexists; vm_compute; reflexivity). destruct E as [s E].
  assert (A2 : exists x1 x2 y1 y2, chi wc_table = Some [x1; x2] /\ chi (cur s) = Some [y1; y2] /\ mem 18 (all_mts s) = true /\
      eqw (map wc_fx (per_mev (dp x2))) (map wc_fx (per_mev (dp y2))) = false /\ eqw (map wc_fx (dc x2)) (map wc_fx (dc y2)) = false /\
      exists out w', write_one wc_fx wc_table s (wx_file (wp_words s)) = Some out /\ read_ace out = Some w' /\
        heldb (wp_words s) 7 (map wc_fx (per_mev (dp x2))) && heldb (words (single w')) 7 (map wc_fx (per_mev (dp y2))) && heldb (wp_words s) 10 (map wc_fx (dc x2)) && heldb (words (single w')) 10 (map wc_fx (dc x2)) = true /\
        forallb (fun j => negb (heldb (words (single w')) j (map wc_fx (dc y2)))) (seq 0 (S (length (words (single w'))))) = true).
  { vm_compute in E. injection E as <-. eexists _, _, _, _. split; [reflexivity|]. split; [reflexivity|]. split; [reflexivity|]. split; [vm_compute; reflexivity|]. split; [vm_compute; reflexivity|].
    eexists _, _. split; [vm_compute; reflexivity|]. split; [vm_compute; reflexivity|]. split; vm_compute; reflexivity. }
  destruct A2 as (x1 & x2 & y1 & y2 & C1 & C2 & M & N1 & N2 & out & w' & W & R & HB & NB). rewrite !andb_true_iff in HB. destruct HB as [[[H1 H2] H3] H4]. apply heldb_held in H1, H2, H3, H4.
  assert (D : data_words 12 (wx_file (wp_words s)) = wp_words s) by (apply eqw_eq; vm_compute in E; injection E as <-; vm_compute; reflexivity).
  exists wc_fx, wc_table, wc_rs, s, (wx_file (wp_words s)), 12, out, w', (per_mev (dp x2)), (per_mev (dp y2)), (dc x2), (dc y2).
  split; [exact wc_fx_e11|]. split; [apply blanksb_only; vm_compute in E; injection E as <-; vm_compute; reflexivity|]. split; [vm_compute in E; injection E as <-; vm_compute; reflexivity|].
  split; [exact E|]. split; [unfold sample_text; rewrite E; exact W|]. split; [exact R|]. split.
  { exists ([(per_mev (dp x1), per_mev (dp y1)); (per_mev (dp x2), per_mev (dp y2))] ++ [(dc x1, dc y1); (dc x2, dc y2)]). split; [|cbn; tauto].
    right. split; [reflexivity|]. split; [now apply mem_In|]. exists [x1; x2], [y1; y2]. split; [exact C1|]. split; [exact C2|]. split; [reflexivity|].
    exists [(per_mev (dp x1), per_mev (dp y1)); (per_mev (dp x2), per_mev (dp y2))], [(dc x1, dc y1); (dc x2, dc y2)]. split; [reflexivity|]. split; [reflexivity|]. split; [reflexivity|].
    intros [|[|i]] x y X Y; cbn in X, Y; try (injection X as <-; injection Y as <-; split; reflexivity). destruct i; discriminate. }
  rewrite D. split; [intros Q; apply eqw_eq in Q; congruence|]. split; [intros Q; apply eqw_eq in Q; congruence|]. split; [exists 7; auto|]. split; [exists 10; auto|].
  intros j HJ. assert (J : In j (seq 0 (S (length (words (single w')))))) by (destruct HJ as (l & r & -> & L); apply in_seq; rewrite app_length; lia).
  rewrite forallb_forall in NB. specialize (NB j J). apply heldb_held in HJ. rewrite HJ in NB. discriminate.
Qed.
Print Assumptions C59_spectrum_refuted.
