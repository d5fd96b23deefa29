From Coq Require Import ZArith NArith List Bool Arith Ascii Lia.
From Verif Require Import Text Dec PyNum Lib_Model Lib_Spec Lib_Proofs.
Import ListNotations.
Local Open Scope nat_scope.

Section Float.
Context {D : Type} (F : floats D) (PF : proper F).

(** ** Reading text *)
Lemma readline_here : forall (x f : list text), readline_n (length x) (x ++ f) = (x, f).
Proof. induction x as [|l x IH]; intros f; [reflexivity|]. cbn. now rewrite IH. Qed.
Lemma readline_more : forall k f, readline_n (S k) f = let (a, r) := readline_n k f in let (b, q) := readline_n 1 r in (a ++ b, q).
Proof.
  assert (N : forall f, exists l f', forall j, readline_n (S j) f = let (a, r) := readline_n j f' in (l :: a, r)) by (intros [|l f]; [exists [], [] | exists l, f]; reflexivity).
  induction k as [|k IH]; intros f.
  - destruct f; reflexivity.
  - destruct (N f) as (l & f' & E). rewrite (E (S k)), (IH f'), (E k). destruct (readline_n k f') as [a r]. destruct (readline_n 1 r) as [b q]. reflexivity.
Qed.
Lemma shift_window k l f : shift (readline_n (S k) (l :: f)) = readline_n (S k) f.
Proof. rewrite (readline_more k f). cbn [readline_n]. destruct (readline_n k f) as [a r]. unfold shift. cbn [tl]. reflexivity. Qed.
Lemma int_prefix_word w z : word w -> py_int w = Some z -> int_prefix w = Some (z, true).
Proof.
  intros W. unfold py_int, int_prefix. assert (T : trim w = w).
  { destruct W as [W1 W2]. pose proof (trim_padded 0 w 0) as T. cbn [repeat app] in T. rewrite app_nil_r in T. apply T.
    - destruct w as [|c w]; [easy|]. cbn. apply W2. now left.
    - unfold ends_space. destruct (rev w) as [|c r] eqn:E; [destruct W1; rewrite <- (rev_involutive w), E; reflexivity|]. cbn. apply W2. apply in_rev. rewrite E. now left. }
  rewrite T. destruct (sign w) as [n u]. destruct (digits u) as [[|d ds] [|e r]]; try discriminate. congruence.
Qed.
Lemma from_all {A} (p : text -> option (A * bool)) : forall ws l, Forall2 (fun w z => p w = Some (z, true)) ws l -> from_words p ws = l.
Proof. induction 1 as [|w z ws l H _ IH]; [reflexivity|]. cbn. now rewrite H, IH. Qed.
Lemma all_words_word ls : Forall word (all_words ls).
Proof. apply Forall_forall. intros w H. unfold all_words in H. apply in_flat_map in H. destruct H as (l & _ & H). now apply words_word in H. Qed.
Lemma Forall2_word {A} (P Q : text -> A -> Prop) ws l : (forall w z, word w -> P w z -> Q w z) -> Forall word ws -> Forall2 P ws l -> Forall2 Q ws l.
Proof. intros H W. induction 1 as [|w z ws l HP _ IH]; constructor; inversion W; subst; auto. Qed.
Lemma ended_space l : ended l -> ends_space l = true.
Proof. intros (b & -> & _). unfold ends_space. rewrite rev_app_distr. reflexivity. Qed.
Lemma words_concat : forall ls, Forall ended ls -> words (concat ls) = all_words ls.
Proof. induction 1 as [|l ls H _ IH]; [reflexivity|]. cbn [concat]. rewrite words_app_l by (now apply ended_space). rewrite IH. reflexivity. Qed.
Lemma take_hint_even n : forall ds got hint e f, Forall (fun l : text => length l = n) ds -> (got + Z.of_nat n * Z.of_nat (length ds) < hint)%Z -> (hint <= got + Z.of_nat n * Z.of_nat (length ds) + Z.of_nat (length e))%Z ->
  take_hint hint got (ds ++ e :: f) = (ds ++ [e], f).
Proof.
  induction ds as [|l ds IH]; intros got hint e f H A B; cbn [app take_hint length] in *.
  - destruct (Z.leb_spec hint (got + Z.of_nat (length e))) as [_|C]; [reflexivity | lia].
  - inversion H as [|? ? E H']; subst. destruct (Z.leb_spec hint (got + Z.of_nat (length l))) as [C|_]; [nia|]. rewrite IH; auto; nia.
Qed.
(** One table at the front of a window. *)
Lemma header_old ls t h0 x f : table_text F ls t -> nth_error ls 0 = Some h0 -> header F (h0 :: x) f = Some (t_name t, t_awr t, t_temp t, (h0 :: x, f)).
Proof.
  intros [(h0' & h1 & ps & ns & js & ds & E & _ & _ & _ & _ & _ & _ & _ & (c & d & r & wa & wt & more & EN & ND & W & A1 & A2) & _)] H. rewrite E in H. injection H as <-.
  unfold header, new_style. cbn [nth]. rewrite W. rewrite EN at 1. assert (Q : eqc d "." = false) by now apply eqc_neq. rewrite Q, A1, A2. reflexivity.
Qed.
Lemma step_text ls t r k repair seen ls0 f0 : table_text F ls t -> even_lines ls -> forallb is_space (@nth text 0 ls0 []) = false ->
  (forall w, w = readline_n 13 (ls ++ r) -> header F ls0 f0 = Some (t_name t, t_awr t, t_temp t, w)) ->
  read_text F (S k) repair None seen (ls0, f0) =
  match read_text F k repair None (t_name t :: seen) (readline_n 13 r) with Some q => Some (t :: q) | None => None end.
Proof.
  intros T [EL (d & dm & e & SK & EV)] NB HD. pose proof T as T0.
  destruct T0 as [(h0 & h1 & ps & ns & js & ds & E & L1 & L2 & L3 & LH & NM & AW & TZ & _ & (pw & PW & LPW & FPW) & (nxs & TN & LN & FN & xss & TX & NN & FX & LD) & (jxs & TJ & LJ & FJ))].
  destruct (lines_parts h0 h1 ps ns js ds L1 L2 L3 []) as (_ & _ & _ & _ & _ & c6). rewrite <- E in c6.
  assert (SD : ds = d :: dm ++ [e]).
  { rewrite <- SK, E. change (h0 :: h1 :: ps ++ ns ++ js ++ ds) with ([h0; h1] ++ ps ++ ns ++ js ++ ds). replace 12 with (length ([h0; h1] ++ ps ++ ns ++ js)) by (rewrite !app_length; cbn; lia).
    replace ([h0; h1] ++ ps ++ ns ++ js ++ ds) with (([h0; h1] ++ ps ++ ns ++ js) ++ ds) by (now rewrite <- !app_assoc). now rewrite skipn_app, skipn_all, Nat.sub_diag. }
  set (hd0 := h0 :: h1 :: ps ++ ns ++ js ++ [d]). assert (LHD : length hd0 = 13) by (unfold hd0; cbn [length]; rewrite !app_length; cbn; lia).
  assert (EL2 : ls = hd0 ++ dm ++ [e]) by (rewrite E, SD; unfold hd0; cbn [app]; rewrite <- !app_assoc; reflexivity).
  assert (W : readline_n 13 (ls ++ r) = (hd0, dm ++ e :: r)).
  { rewrite EL2. rewrite <- LHD. rewrite <- !app_assoc. cbn [app]. apply readline_here. }
  cbn [read_text]. rewrite NB. rewrite (HD _ eq_refl), W. clear HD.
  destruct (lines_parts h0 h1 ps ns js [d] L1 L2 L3 []) as (w1 & w2 & w3 & _ & _ & _). fold hd0 in w1, w2, w3. rewrite app_nil_r in w1, w2, w3. rewrite w1, w2.
  unfold tokens. rewrite !words_join_lines, PW. destruct (evens_pairs pw) as [EVN OD]. rewrite EVN, OD.
  apply Forall2_and_l in FPW. destruct FPW as [FI FPW]. apply Forall2_and_l in FPW. destruct FPW as [FF FFit].
  assert (IZ : all_some py_int (map fst pw) = Some (map fst (t_pairs t))) by (apply all_some_ok; clear -FI; induction FI; constructor; auto).
  assert (AWS : all_some (flt F) (map snd pw) = Some (map snd (t_pairs t))) by (apply all_some_ok; clear -FF; induction FF; constructor; auto).
  rewrite IZ, AWS. apply Forall2_and_l in FN. destruct FN as [FN NFit]. apply Forall2_and_l in FJ. destruct FJ as [FJ JFit].
  assert (CB : combine (map fst (t_pairs t)) (map snd (t_pairs t)) = t_pairs t) by (clear; induction (t_pairs t) as [|[a b] l IH]; cbn; congruence). rewrite CB.
  rewrite (from_all int_prefix _ nxs) by (apply (Forall2_word (fun w z => py_int w = Some z)); [apply int_prefix_word | apply all_words_word | exact FN]).
  destruct nxs as [|n0 nxs']; [discriminate|]. cbn [nth] in NN. cbn [nth_error].
  assert (NL : ((n0 + 3) / 4)%Z = Z.of_nat (length ds)).
  { rewrite LD, NN. rewrite Nat2Z.inj_div, Nat2Z.inj_add. reflexivity. }
  rewrite NL. assert (LDS : length ds = S (length dm + 1)) by (rewrite SD; cbn [length]; rewrite app_length; reflexivity).
  assert (LST : @last text hd0 [] = d).
  { unfold hd0. change (h0 :: h1 :: ps ++ ns ++ js ++ [d]) with ([h0; h1] ++ ps ++ ns ++ js ++ [d]). rewrite !app_assoc. apply last_last. }
  rewrite LST.
  assert (RL : readlines (Z.of_nat (length d) * (Z.of_nat (length ds) - 2) + 1) (dm ++ e :: r) = (dm ++ [e], r)).
  { unfold readlines. destruct (Z.leb_spec (Z.of_nat (length d) * (Z.of_nat (length ds) - 2) + 1) 0) as [C|_]; [nia|].
    assert (LE : 1 <= length e). { assert (HE : ended e). { rewrite Forall_forall in EL. apply EL. rewrite EL2. rewrite !in_app_iff. right. right. now left. } destruct HE as (b & -> & _). rewrite app_length. cbn. lia. }
    apply (take_hint_even (length d)); [exact EV | nia | nia]. }
  rewrite RL.
  assert (ALL : hd0 ++ dm ++ [e] = ls) by now symmetry. rewrite ALL.
  assert (OV : skipn (Z.to_nat (12 + Z.of_nat (length ds))) ls = []) by (apply skipn_all2; lia). rewrite OV. cbn [length Nat.ltb Nat.leb andb].
  destruct (lines_parts h0 h1 ps ns js ds L1 L2 L3 []) as (_ & _ & v3 & v4 & _ & _). rewrite <- E in v3, v4. rewrite app_nil_r in v3, v4. rewrite v3, Nat2Z.id, v4.
  rewrite words_join_lines. rewrite (from_all int_prefix _ jxs) by (apply (Forall2_word (fun w z => py_int w = Some z)); [apply int_prefix_word | apply all_words_word | exact FJ]).
  rewrite words_concat by (rewrite Forall_forall in *; intros x X; apply EL; rewrite E; right; right; rewrite !in_app_iff; auto).
  rewrite (from_all (prefix F) _ xss) by (apply (Forall2_word (fun w z => flt F w = Some z)); [apply (p_prefix _ PF) | apply all_words_word | exact FX]).
  assert (LX : (Z.of_nat (S (length xss)) =? n0 + 1)%Z = true) by (apply Z.eqb_eq; rewrite NN; lia). rewrite LX. cbn [length]. rewrite LX.
  destruct (read_text F k repair None (t_name t :: seen) (readline_n 13 r)) as [q|]; [|reflexivity]. rewrite <- TN, <- TJ, <- TX. destruct t; reflexivity.
Qed.
Lemma word_notblank l w ws : words l = w :: ws -> forallb is_space l = false.
Proof.
  intros H. destruct (forallb is_space l) eqn:E; [|reflexivity]. exfalso. assert (W : words l = []).
  { clear H. induction l as [|c l IH]; [reflexivity|]. cbn in E. apply andb_true_iff in E. destruct E as [E1 E2]. rewrite words_cons, E1. auto. }
  congruence.
Qed.
Lemma read_even : forall ls ts, even_text F ls ts -> forall fuel repair seen, length ls < fuel -> read_text F fuel repair None seen (readline_n 13 ls) = Some ts.
Proof.
  induction 1 as [|ls t r ts T EL E IH|pre ls t r ts HP T EL E IH]; intros fuel repair seen L.
  - destruct fuel; [lia | reflexivity].
  - destruct fuel as [|k]; [lia|]. rewrite app_length in L. destruct (table_lines _ _ _ T) as (LL & h0 & q & E0 & NS).
    assert (W : exists x f, readline_n 13 (ls ++ r) = (h0 :: x, f)) by (rewrite E0; change (readline_n 13 ((h0 :: q) ++ r)) with (let (a, f) := readline_n 12 (q ++ r) in (h0 :: a, f)); destruct (readline_n 12 (q ++ r)); eauto).
    destruct W as (x & f & W). rewrite W. rewrite (step_text ls t r k repair seen (h0 :: x) f T EL).
    + rewrite IH by lia. reflexivity.
    + cbn [nth]. unfold new_style in NS. destruct (words h0) as [|w ws] eqn:EW; [discriminate|]. exact (word_notblank _ _ _ EW).
    + intros w ->. rewrite W. apply (header_old ls t h0 x f T). rewrite E0. reflexivity.
  - destruct fuel as [|k]; [lia|]. rewrite !app_length in L. destruct HP as (l0 & l1 & l2 & c & q & more & a & b & d & rest & -> & W0 & W1 & A1 & A2).
    destruct (readline_n 13 ([l0; l1; l2] ++ ls ++ r)) as [ls0 f0] eqn:W.
    assert (N01 : @nth text 0 ls0 [] = l0 /\ @nth text 1 ls0 [] = l1).
    { change (readline_n 13 ([l0; l1; l2] ++ ls ++ r)) with (let (a, f) := (let (b, g) := readline_n 11 (l2 :: ls ++ r) in (l1 :: b, g)) in (l0 :: a, f)) in W. destruct (readline_n 11 (l2 :: ls ++ r)) as [y g]. injection W as <- <-. split; reflexivity. }
    destruct N01 as [N0 N1]. rewrite (step_text ls t r k repair seen ls0 f0 T EL).
    + cbn [length] in L. rewrite IH by lia. reflexivity.
    + rewrite N0. exact (word_notblank _ _ _ W0).
    + intros w ->. unfold header, new_style. rewrite N0, N1, W0, W1. assert (EC : eqc "."%char "."%char = true) by reflexivity. rewrite EC, A1, A2. assert (P3 : py_int (str "3") = Some 3%Z) by reflexivity. rewrite P3. change (Z.to_nat 3) with 3. rewrite <- W. do 2 f_equal. change (shift (shift (shift (readline_n 13 (l0 :: l1 :: l2 :: ls ++ r)))) = readline_n 13 (ls ++ r)). now rewrite (shift_window 12 l0), (shift_window 12 l1), (shift_window 12 l2).
Qed.
Lemma even_library ls ts : even_text F ls ts -> library_text F ls ts.
Proof.
  induction 1 as [|ls t r ts T EL E IH|pre ls t r ts HP T EL E IH]; [constructor | now constructor|]. apply lt_new; auto.
  destruct HP as (l0 & l1 & l2 & c & q & more & a & b & d & rest & -> & W0 & W1 & A1 & A2). exists l0, l1, l2, (c :: "."%char :: q), c, q, (t_name t :: more), a, b, d, rest. auto.
Qed.

Lemma no_subset ws : proper_subset ws [] = false.
Proof. unfold proper_subset. cbn [forallb negb]. apply andb_false_r. Qed.
Lemma select_window ls t r k repair ws ls0 f0 : table_text F ls t -> even_lines ls -> forallb is_space (@nth text 0 ls0 []) = false -> existsb (eqt (t_name t)) ws = false ->
  (forall w, w = readline_n 13 (ls ++ r) -> header F ls0 f0 = Some (t_name t, t_awr t, t_temp t, w)) ->
  read_text F (S k) repair (Some ws) [] (ls0, f0) = None.
Proof.
  intros T [EL (d & dm & e & SK & EV)] NB NW HD. pose proof T as T0.
  destruct T0 as [(h0 & h1 & ps & ns & js & ds & E & L1 & L2 & L3 & LH & NM & AW & TZ & _ & (pw & PW & LPW & FPW) & (nxs & TN & LN & FN & xss & TX & NN & FX & LD) & (jxs & TJ & LJ & FJ))].
  assert (SD : ds = d :: dm ++ [e]).
  { rewrite <- SK, E. change (h0 :: h1 :: ps ++ ns ++ js ++ ds) with ([h0; h1] ++ ps ++ ns ++ js ++ ds). replace 12 with (length ([h0; h1] ++ ps ++ ns ++ js)) by (rewrite !app_length; cbn; lia).
    replace ([h0; h1] ++ ps ++ ns ++ js ++ ds) with (([h0; h1] ++ ps ++ ns ++ js) ++ ds) by (now rewrite <- !app_assoc). now rewrite skipn_app, skipn_all, Nat.sub_diag. }
  set (hd0 := h0 :: h1 :: ps ++ ns ++ js ++ [d]). assert (LHD : length hd0 = 13) by (unfold hd0; cbn [length]; rewrite !app_length; cbn; lia).
  assert (EL2 : ls = hd0 ++ dm ++ [e]) by (rewrite E, SD; unfold hd0; cbn [app]; rewrite <- !app_assoc; reflexivity).
  assert (W : readline_n 13 (ls ++ r) = (hd0, dm ++ e :: r)).
  { rewrite EL2. rewrite <- LHD. rewrite <- !app_assoc. cbn [app]. apply readline_here. }
  cbn [read_text]. rewrite NB. rewrite (HD _ eq_refl), W. clear HD.
  destruct (all_some py_int _) as [iz|]; [|reflexivity]. destruct (all_some (flt F) _) as [aw|]; [|reflexivity].
  destruct (lines_parts h0 h1 ps ns js [d] L1 L2 L3 []) as (_ & w2 & _). fold hd0 in w2. rewrite app_nil_r in w2. rewrite w2. unfold tokens. rewrite !words_join_lines.
  apply Forall2_and_l in FN. destruct FN as [FN _].
  rewrite (from_all int_prefix _ nxs) by (apply (Forall2_word (fun w z => py_int w = Some z)); [apply int_prefix_word | apply all_words_word | exact FN]).
  destruct nxs as [|n0 nxs']; [discriminate|]. cbn [nth] in NN. cbn [nth_error]. rewrite no_subset, NW. cbn [negb].
  assert (NL : ((n0 + 3) / 4)%Z = Z.of_nat (length ds)).
  { rewrite LD, NN. rewrite Nat2Z.inj_div, Nat2Z.inj_add. reflexivity. }
  rewrite NL. assert (LDS : length ds = S (length dm + 1)) by (rewrite SD; cbn [length]; rewrite app_length; reflexivity).
  destruct (Z.eqb_spec (Z.of_nat (length (@last text hd0 [])) * (Z.of_nat (length ds) - 2) + 1) 0) as [C|_]; [nia | reflexivity].
Qed.
Lemma select_raises ls t ts repair ws : even_text F ls (t :: ts) -> existsb (eqt (t_name t)) ws = false -> read_ascii F repair (Some ws) ls = None.
Proof.
  intros H NW. unfold read_ascii. inversion H as [|ls' t' r ts' T EL E E1 E2|pre ls' t' r ts' HP T EL E E1 E2]; subst.
  - destruct (table_lines _ _ _ T) as (LL & h0 & q & E0 & NS).
    assert (W : exists x f, readline_n 13 (ls' ++ r) = (h0 :: x, f)) by (rewrite E0; change (readline_n 13 ((h0 :: q) ++ r)) with (let (a, f) := readline_n 12 (q ++ r) in (h0 :: a, f)); destruct (readline_n 12 (q ++ r)); eauto).
    destruct W as (x & f & W). rewrite W. apply (select_window ls' t r); auto.
    + cbn [nth]. unfold new_style in NS. destruct (words h0) as [|w ws'] eqn:EW; [discriminate|]. exact (word_notblank _ _ _ EW).
    + intros w ->. rewrite W. apply (header_old ls' t h0 x f T). rewrite E0. reflexivity.
  - destruct HP as (l0 & l1 & l2 & c & q & more & a & b & d & rest & -> & W0 & W1 & A1 & A2).
    destruct (readline_n 13 ([l0; l1; l2] ++ ls' ++ r)) as [ls0 f0] eqn:W.
    assert (N01 : @nth text 0 ls0 [] = l0 /\ @nth text 1 ls0 [] = l1).
    { change (readline_n 13 ([l0; l1; l2] ++ ls' ++ r)) with (let (a, f) := (let (b, g) := readline_n 11 (l2 :: ls' ++ r) in (l1 :: b, g)) in (l0 :: a, f)) in W. destruct (readline_n 11 (l2 :: ls' ++ r)) as [y g]. injection W as <- <-. split; reflexivity. }
    destruct N01 as [N0 N1]. apply (select_window ls' t r); auto.
    + rewrite N0. exact (word_notblank _ _ _ W0).
    + intros w ->. unfold header, new_style. rewrite N0, N1, W0, W1. assert (EC : eqc "."%char "."%char = true) by reflexivity. rewrite EC, A1, A2. assert (P3 : py_int (str "3") = Some 3%Z) by reflexivity. rewrite P3. change (Z.to_nat 3) with 3. rewrite <- W. do 2 f_equal. change (shift (shift (shift (readline_n 13 (l0 :: l1 :: l2 :: ls' ++ r)))) = readline_n 13 (ls' ++ r)). now rewrite (shift_window 12 l0), (shift_window 12 l1), (shift_window 12 l2).
Qed.
Lemma readers_agree ls ts : even_text F ls ts -> exists b, ascii_to_binary F ls = Some b /\ read_bin F None b = Some ts /\ forall repair, read_ascii F repair None ls = Some ts.
Proof.
  intros H. destruct (binary_round F PF ls ts (even_library ls ts H)) as (b & B1 & _ & B2). exists b. split; [exact B1|]. split; [rewrite (B2 None); f_equal; clear; induction ts; cbn; congruence|].
  intros repair. unfold read_ascii. apply (read_even ls ts H). lia.
Qed.
Lemma iter_in (x : list text * list text) : forall k, Nat.iter (S k) shift x = Nat.iter k shift (shift x).
Proof. induction k as [|k IH]; [reflexivity|]. change (shift (Nat.iter (S k) shift x) = shift (Nat.iter k shift (shift x))). now rewrite IH. Qed.
Lemma shift_lines : forall pre rest, Nat.iter (length pre) shift (readline_n 13 (pre ++ rest)) = readline_n 13 rest.
Proof.
  induction pre as [|l pre IH]; intros rest; [reflexivity|]. cbn [length app]. rewrite iter_in, (shift_window 12 l). apply IH.
Qed.
Lemma long_window pre n t rest : long_header F pre n t -> exists ls0 f0, readline_n 13 (pre ++ rest) = (ls0, f0) /\ forallb is_space (@nth text 0 ls0 []) = false /\
  header F ls0 f0 = Some (t_name t, t_awr t, t_temp t, readline_n 13 rest).
Proof.
  intros (l0 & l1 & cs & c & q & more & a & b & d & more' & EP & W0 & W1 & A1 & A2 & N).
  destruct (readline_n 13 (pre ++ rest)) as [ls0 f0] eqn:W. exists ls0, f0. split; [reflexivity|].
  assert (N01 : @nth text 0 ls0 [] = l0 /\ @nth text 1 ls0 [] = l1).
  { rewrite EP in W. cbn [app] in W. change (readline_n 13 (l0 :: l1 :: cs ++ rest)) with (let (a, f) := (let (b, g) := readline_n 11 (cs ++ rest) in (l1 :: b, g)) in (l0 :: a, f)) in W. destruct (readline_n 11 (cs ++ rest)) as [y g]. injection W as <- <-. split; reflexivity. }
  destruct N01 as [N0 N1]. split; [rewrite N0; exact (word_notblank _ _ _ W0)|].
  unfold header, new_style. rewrite N0, N1, W0, W1. assert (EC : eqc "."%char "."%char = true) by reflexivity. rewrite EC, A1, A2, N, Nat2Z.id, <- W. now rewrite shift_lines.
Qed.
Lemma long_read pre n ls t r ts repair : long_header F pre n t -> table_text F ls t -> even_lines ls -> even_text F r ts ->
  read_ascii F repair None (pre ++ ls ++ r) = Some (t :: ts).
Proof.
  intros H T EL E. unfold read_ascii. destruct (long_window pre n t (ls ++ r) H) as (ls0 & f0 & W & NB & HD). rewrite W.
  assert (LP : length r < length (pre ++ ls ++ r)). { rewrite !app_length. destruct (table_lines _ _ _ T) as (LL & _). lia. }
  rewrite (step_text ls t r _ repair [] ls0 f0 T EL NB); [|intros w ->; exact HD]. now rewrite (read_even r ts E).
Qed.
Lemma long_convert pre n t rest : long_header F pre n t -> n <> str "3" -> ascii_to_binary F (pre ++ rest) = None.
Proof.
  intros (l0 & l1 & cs & c & q & more & a & b & d & more' & -> & W0 & W1 & _) N. unfold ascii_to_binary. cbn [app convert length]. unfold new_style. rewrite W0. assert (EC : eqc "."%char "."%char = true) by reflexivity. rewrite EC.
  cbn [nth_error]. rewrite W1. cbn [nth_error]. destruct (eqt n (str "3")) eqn:E; [apply eqt_eq in E; contradiction | reflexivity].
Qed.
End Float.
