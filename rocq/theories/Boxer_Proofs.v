From Verif Require Import Num Text Dec PyNum Boxer_Model Boxer_Spec.
From Coq Require Import ZArith.
Local Open Scope list_scope.
Local Open Scope nat_scope.

(** ** Occurrence *)
Lemma strip_spec p : forall s r, strip p s = Some r <-> s = p ++ r.
Proof.
  induction p as [|a p IH]; intros s r; cbn [strip app].
  - split; congruence.
  - destruct s as [|b s]; [split; discriminate|]. destruct (eqc a b) eqn:E.
    + apply eqc_eq in E as ->. rewrite IH. split; [intros ->; reflexivity|intros H; now injection H].
    + apply eqc_neq in E. split; [discriminate|]. intros H. injection H. congruence.
Qed.
Lemma occurs_spec pat t : occurs pat t = true <-> mentions pat t.
Proof.
  unfold mentions. split.
  - induction t as [|c t IH]; cbn [occurs].
    + destruct (strip pat []) as [r|] eqn:E; [|discriminate]. apply strip_spec in E. intros _. exists [], r. exact E.
    + destruct (strip pat (c :: t)) as [r|] eqn:E; [apply strip_spec in E; intros _; exists [], r; exact E|].
      intros H. destruct (IH H) as (a & b & ->). now exists (c :: a), b.
  - intros (a & b & ->). induction a as [|c a IH].
    + cbn [app]. assert (E : strip pat (pat ++ b) = Some b) by now apply strip_spec. destruct (pat ++ b); cbn [occurs]; now rewrite E.
    + cbn [app occurs]. destruct (strip pat (c :: a ++ pat ++ b)); [reflexivity|exact IH].
Qed.

(** ** Numbers with leading zeros *)
Lemma no_space_trim w : (forall c, In c w -> is_space c = false) -> trim w = w.
Proof.
  intros H. unfold trim.
  assert (L : forall u, (forall c, In c u -> is_space c = false) -> ltrim u = u).
  { intros [|c u] Hu; [reflexivity|]. cbn. now rewrite (Hu c (or_introl eq_refl)). }
  rewrite (L w H), L; [apply rev_involutive|]. intros c Hc. apply H. now apply in_rev.
Qed.
Lemma digits_zeros k t : digits (repeat "0"%char k ++ t) = (repeat "0"%char k ++ fst (digits t), snd (digits t)).
Proof.
  induction k as [|k IH]; [cbn; now destruct (digits t)|]. cbn [repeat app digits].
  change (is_digit "0") with true. now rewrite IH.
Qed.
Lemma sign_start_digit w : starts_with_digit w -> sign w = (false, w).
Proof.
  destruct w as [|c r]; [intros []|]. cbn [starts_with_digit sign]. intros H.
  destruct (eqc c "-") eqn:E; [apply eqc_eq in E; subst; cbn in H; lia|].
  destruct (eqc c "+") eqn:E'; [apply eqc_eq in E'; subst; cbn in H; lia|]. reflexivity.
Qed.
Lemma zero_not_space : is_space "0" = false. Proof. reflexivity. Qed.
Lemma float_zeros k w : (forall c, In c w -> is_space c = false) -> starts_with_digit w ->
  py_float (repeat "0"%char k ++ w) = py_float w.
Proof.
  intros Hs Hd. unfold py_float. rewrite !no_space_trim; [|assumption|].
  2:{ intros c Hc. apply in_app_iff in Hc as [Hc|Hc]; [apply repeat_spec in Hc as ->; reflexivity|now apply Hs]. }
  rewrite (sign_start_digit w Hd).
  assert (S0 : sign (repeat "0"%char k ++ w) = (false, repeat "0"%char k ++ w)).
  { destruct k; [now apply sign_start_digit|reflexivity]. }
  rewrite S0, digits_zeros. destruct (digits w) as [ip r] eqn:Ed. cbn [fst snd].
  assert (Hip : ip <> []).
  { destruct w as [|c w]; [destruct Hd|]. cbn [starts_with_digit digits] in *. unfold is_digit in Ed. cbn zeta in Ed.
    destruct Hd as [H1 H2]. apply Nat.leb_le in H1. apply Nat.leb_le in H2. rewrite H1, H2 in Ed. cbn in Ed.
    destruct (digits w). injection Ed as <- _. discriminate. }
  destruct (match r with [] => ([], []) | c :: r0 => if eqc c "." then digits r0 else ([], r) end) as [fp r'].
  rewrite <- app_assoc. destruct (repeat "0"%char k ++ ip ++ fp) as [|c m] eqn:Em.
  { apply app_eq_nil in Em as [_ Em]. apply app_eq_nil in Em as [Em _]. congruence. }
  destruct (ip ++ fp) as [|c' m'] eqn:Em'; [apply app_eq_nil in Em' as [Em' _]; congruence|].
  rewrite <- Em, dval_zeros. reflexivity.
Qed.

(** ** Fields *)
Lemma blanks_to_zeros_app a b : blanks_to_zeros (a ++ b) = blanks_to_zeros a ++ blanks_to_zeros b.
Proof. apply map_app. Qed.
Lemma blanks_word w : (forall c, In c w -> is_space c = false) -> blanks_to_zeros w = w.
Proof.
  intros H. unfold blanks_to_zeros. rewrite <- (map_id w) at 2. apply map_ext_in. intros c Hc.
  destruct (eqc c sp) eqn:E; [|reflexivity]. apply eqc_eq in E as ->. specialize (H _ Hc). discriminate.
Qed.
Lemma blanks_repeat k : blanks_to_zeros (repeat sp k) = repeat "0"%char k.
Proof. induction k as [|k IH]; [reflexivity|]. cbn. now rewrite <- IH. Qed.
(** What a field becomes. *)
Definition zeroed (f g : text) (v : Qc) : Prop :=
  blanks_to_zeros f = g /\ length g = 10 /\ py_float g = Some v /\ forall c, In c g -> is_space c = false.
Lemma shows_zeroed f v : shows f v -> exists g, zeroed f g v.
Proof.
  intros (Hl & _ & k & w & -> & Hv & Hw & Hk). exists (repeat "0"%char k ++ w). split; [|split; [|split]].
  - now rewrite blanks_to_zeros_app, blanks_repeat, blanks_word.
  - rewrite app_length, repeat_length in *. exact Hl.
  - destruct Hk as [->|Hd]; [exact Hv|]. now rewrite float_zeros.
  - intros c Hc. apply in_app_iff in Hc as [Hc|Hc]; [apply repeat_spec in Hc as ->; reflexivity|now apply Hw].
Qed.
Lemma no_space_app a b : no_space (a ++ b) = no_space a ++ no_space b.
Proof. unfold no_space. induction a as [|c a IH]; [reflexivity|]. cbn. destruct (negb _); cbn; now rewrite IH. Qed.
Lemma no_space_word w : (forall c, In c w -> is_space c = false) -> no_space w = w.
Proof.
  intros H. unfold no_space. induction w as [|c w IH]; [reflexivity|]. cbn. rewrite (H c (or_introl eq_refl)). cbn.
  f_equal. apply IH. intros d Hd. apply H. now right.
Qed.
Lemma line_end e : (forall c, In c e -> is_space c = true /\ c <> sp) -> no_space (blanks_to_zeros e) = [].
Proof.
  intros H. induction e as [|c e IH]; [reflexivity|]. destruct (H c (or_introl eq_refl)) as [H1 H2].
  cbn. apply eqc_neq in H2. rewrite H2, H1. cbn. apply IH. intros d Hd. apply H. now right.
Qed.
Lemma fields_text fs : forall gs vs, Forall2 (fun f p => zeroed f (fst p) (snd p)) fs (combine gs vs) -> length gs = length vs ->
  no_space (blanks_to_zeros (concat fs)) = concat gs.
Proof.
  induction fs as [|f fs IH]; intros gs vs HF Hl.
  - destruct gs as [|g gs]; [reflexivity|]. destruct vs; [discriminate|]. inversion HF.
  - destruct gs as [|g gs]; [inversion HF|]. destruct vs as [|v vs]; [discriminate|]. inversion HF as [|? ? ? ? Hf HF']. subst.
    cbn [concat]. rewrite blanks_to_zeros_app, no_space_app. rewrite (IH gs vs HF') by (cbn in Hl; lia).
    destruct Hf as (-> & _ & _ & Hs). cbn [fst]. now rewrite no_space_word.
Qed.

Inductive Forall3 {A B C} (R : A -> B -> C -> Prop) : list A -> list B -> list C -> Prop :=
| F3_nil : Forall3 R [] [] []
| F3_cons a b c la lb lc : R a b c -> Forall3 R la lb lc -> Forall3 R (a :: la) (b :: lb) (c :: lc).
Lemma all_zeroed fs vs : Forall2 shows fs vs -> exists gs, Forall3 zeroed fs gs vs.
Proof.
  induction 1 as [|f v fs vs H _ (gs & IH)]; [exists []; constructor|]. destruct (shows_zeroed f v H) as (g & Hg).
  exists (g :: gs). now constructor.
Qed.
Lemma zeroed_text fs gs vs : Forall3 zeroed fs gs vs -> no_space (blanks_to_zeros (concat fs)) = concat gs.
Proof.
  induction 1 as [|f g v fs gs vs (E & _ & _ & Hs) _ IH]; [reflexivity|]. cbn [concat].
  now rewrite blanks_to_zeros_app, no_space_app, IH, E, no_space_word.
Qed.
Lemma forall3_app {A B C} (R : A -> B -> C -> Prop) la la' lb lc : Forall3 R (la ++ la') lb lc ->
  exists lb1 lb2 lc1 lc2, lb = lb1 ++ lb2 /\ lc = lc1 ++ lc2 /\ Forall3 R la lb1 lc1 /\ Forall3 R la' lb2 lc2.
Proof.
  revert lb lc. induction la as [|a la IH]; intros lb lc H; cbn [app] in H.
  - exists [], lb, [], lc. repeat split; [constructor|assumption].
  - inversion H as [|? b c ? lb' lc' Hr H' E1 E2 E3]. subst. destruct (IH _ _ H') as (b1 & b2 & c1 & c2 & -> & -> & H1 & H2).
    exists (b :: b1), b2, (c :: c1), c2. repeat split; [now constructor|assumption].
Qed.
Lemma lines_text fs ls : lines_of fs ls -> forall gs vs, Forall3 zeroed fs gs vs ->
  concat (map (fun l => no_space (blanks_to_zeros l)) ls) = concat gs.
Proof.
  induction 1 as [|fs fs' e ls He _ IH]; intros gs vs H.
  - inversion H. reflexivity.
  - apply forall3_app in H as (g1 & g2 & v1 & v2 & -> & -> & H1 & H2). cbn [map concat].
    rewrite (IH _ _ H2), blanks_to_zeros_app, no_space_app, (line_end e He), app_nil_r, (zeroed_text _ _ _ H1).
    now rewrite concat_app.
Qed.
Lemma pieces_concat w gs : 0 < w -> (forall g, In g gs -> length g = w) -> forall k, length (concat gs) <= k -> pieces k w (concat gs) = gs.
Proof.
  intros Hw. induction gs as [|g gs IH]; intros H k Hk; [destruct k; reflexivity|].
  pose proof (H g (or_introl eq_refl)) as Hg. cbn [concat] in *. rewrite app_length in Hk.
  destruct k as [|k]; [lia|]. cbn [pieces]. destruct (g ++ concat gs) as [|c r] eqn:E.
  - apply app_eq_nil in E as [-> _]. cbn in Hg. lia.
  - rewrite <- E. rewrite firstn_app, <- Hg, firstn_all, Nat.sub_diag, firstn_O, app_nil_r.
    rewrite skipn_app, skipn_all, Nat.sub_diag. cbn [app skipn]. f_equal. rewrite Hg. apply IH; [intros x Hx; apply H; now right|lia].
Qed.
Lemma fromstring_ok fs gs vs : Forall3 zeroed fs gs vs -> fromstring gs = vs.
Proof.
  induction 1 as [|f g v fs gs vs (_ & _ & Hv & _) _ IH]; [reflexivity|]. cbn [fromstring].
  assert (E : scan (length g) g = Some (v, length g)).
  { rewrite <- (firstn_all g) in Hv. destruct (length g); cbn [scan]; now rewrite Hv. }
  rewrite E, Nat.eqb_refl. now f_equal.
Qed.
Theorem block_ok fs vs ls : lines_of fs ls -> Forall2 shows fs vs -> block ls = vs.
Proof.
  intros Hl Hf. destruct (all_zeroed _ _ Hf) as (gs & Hg). unfold block. rewrite (lines_text _ _ Hl _ _ Hg).
  rewrite pieces_concat; [now apply (fromstring_ok fs)|lia| |lia].
  clear - Hg. induction Hg as [|f g v fs gs vs (_ & L & _) _ IH]; [intros g []|]. intros x [<-|Hx]; auto.
Qed.

(** ** Headers *)
Lemma words_blanks k t : words (repeat sp k ++ t) = words t.
Proof. induction k; [reflexivity|]. cbn. exact IHk. Qed.
Lemma header_is h : header h -> is_header h = true.
Proof.
  intros (k & z & w & r & -> & Hz & Hw & Hr). unfold is_header. rewrite words_blanks, words_app_r by exact Hr.
  assert (E : words w = [w]).
  { clear - Hw. destruct Hw as [Hne Hs]. induction w as [|c w IH]; [congruence|]. rewrite words_cons, (Hs c (or_introl eq_refl)).
    destruct w as [|d w]; [reflexivity|]. cbn [head_space]. rewrite (Hs d (or_intror (or_introl eq_refl))).
    rewrite IH; [reflexivity|discriminate|]. intros x Hx. apply Hs. now right. }
  rewrite E. cbn [app]. now rewrite Hz.
Qed.
Lemma digits_in t c : In c (fst (digits t)) -> is_digit c = true.
Proof. intros H. destruct (digits_split t) as [_ F]. rewrite forallb_forall in F. auto. Qed.
Lemma py_int_no_point w : (forall c, In c w -> is_space c = false) -> In "."%char w -> py_int w = None.
Proof.
  intros Hs Hp. unfold py_int. rewrite no_space_trim by assumption. destruct (sign w) as [neg u] eqn:E.
  assert (Hu : In "."%char u).
  { destruct w as [|c w]; [destruct Hp|]. cbn [sign] in E. destruct (eqc c "-") eqn:E1.
    - injection E as _ <-. apply eqc_eq in E1 as ->. destruct Hp as [Hp|Hp]; [discriminate|assumption].
    - destruct (eqc c "+") eqn:E2.
      + injection E as _ <-. apply eqc_eq in E2 as ->. destruct Hp as [Hp|Hp]; [discriminate|assumption].
      + injection E as _ <-. exact Hp. }
  destruct (digits u) as [ds r] eqn:Ed. pose proof (digits_split u) as [Sp _]. rewrite Ed in Sp. cbn [fst snd] in Sp.
  destruct ds as [|d ds]; [reflexivity|]. destruct r as [|x r]; [|reflexivity]. exfalso.
  rewrite app_nil_r in Sp. subst u. pose proof (digits_in (d :: ds) "."%char) as H. rewrite Ed in H. specialize (H Hu). discriminate.
Qed.
(** A text whose first word contains the given word's characters. *)
Lemma first_word k w t : w <> [] -> (forall c, In c w -> is_space c = false) ->
  exists u ws, words (repeat sp k ++ w ++ t) = (w ++ u) :: ws.
Proof.
  intros Hne Hs. rewrite words_blanks. induction w as [|c w IH]; [congruence|]. cbn [app]. rewrite words_cons, (Hs c (or_introl eq_refl)).
  destruct w as [|d w].
  - cbn [app]. destruct (head_space t) eqn:E; [now exists [], (words t)|]. destruct (words t) as [|x ws]; [now exists [], []|now exists x, ws].
  - cbn [app head_space]. rewrite (Hs d (or_intror (or_introl eq_refl))). destruct IH as (u & ws & E); [discriminate|intros x Hx; apply Hs; now right|].
    cbn [app] in E. rewrite E. now exists u, ws.
Qed.
Lemma field_not_header f v t : shows f v -> is_header (f ++ t) = false.
Proof.
  intros (Hl & Hp & k & w & -> & _ & Hs & _). apply in_app_iff in Hp as [Hp|Hp]; [apply repeat_spec in Hp; discriminate|].
  unfold is_header. rewrite <- app_assoc. destruct (first_word k w t) as (u & ws & E); [intros ->; destruct Hp|exact Hs|].
  rewrite E. rewrite py_int_no_point; [reflexivity| |apply in_app_iff; now left].
  intros c Hc. destruct (words_word _ (w ++ u) ltac:(rewrite E; now left)) as [_ W]. now apply W.
Qed.
Lemma words_spaces e : (forall c, In c e -> is_space c = true) -> words e = [].
Proof.
  induction e as [|c e IH]; intros H; [reflexivity|]. rewrite words_cons, (H c (or_introl eq_refl)). apply IH. intros d Hd. apply H. now right.
Qed.
Lemma lines_not_header fs ls : lines_of fs ls -> forall vs, Forall2 shows fs vs -> forall l, In l ls -> is_header l = false.
Proof.
  induction 1 as [|fs fs' e ls He _ IH]; intros vs HF l; [intros []|].
  apply Forall2_app_inv_l in HF as (v1 & v2 & F1 & F2 & ->). intros [<-|Hl]; [|now apply (IH v2)].
  destruct F1 as [|f v fs vs Hf F1].
  - cbn [concat app]. unfold is_header. rewrite words_spaces; [reflexivity|]. intros c Hc. apply (He c Hc).
  - cbn [concat]. rewrite <- app_assoc. now apply (field_not_header f v).
Qed.
Lemma header_lines_skip ls r : (forall l, In l ls -> is_header l = false) -> forall k, header_lines k (ls ++ r) = header_lines (k + length ls) r.
Proof.
  induction ls as [|l ls IH]; intros H k; [now rewrite Nat.add_0_r|]. cbn [app header_lines length].
  rewrite (H l (or_introl eq_refl)), IH by (intros x Hx; apply H; now right). f_equal. lia.
Qed.

Lemma between_mid a (b c : list text) x : length a = x -> lines_between x (x + length b) (a ++ b ++ c) = b.
Proof.
  intros <-. unfold lines_between. rewrite skipn_app, skipn_all, Nat.sub_diag. cbn [app skipn].
  replace (length a + length b - length a) with (length b) by lia. now rewrite firstn_app, firstn_all, Nat.sub_diag, firstn_O, app_nil_r.
Qed.
Lemma rows_length k n : forall l, length (rows k n l) = k.
Proof. induction k as [|k IH]; intros l; [reflexivity|]. cbn. now rewrite IH. Qed.
Lemma firstn_nth {A} (l : list A) n j d : j < n -> nth j (firstn n l) d = nth j l d.
Proof. revert n l; induction j as [|j IH]; intros [|n] [|x l] H; try lia; try reflexivity. cbn. apply IH. lia. Qed.
Lemma skipn_nth {A} (l : list A) n j d : nth j (skipn n l) d = nth (n + j) l d.
Proof. revert l; induction n as [|n IH]; intros l; [reflexivity|]. destruct l; cbn; [now destruct j|apply IH]. Qed.
Lemma rows_nth k n : forall l i j, i < k -> j < n -> nth j (nth i (rows k n l) []) 0%Qc = nth (i * n + j) l 0%Qc.
Proof.
  induction k as [|k IH]; intros l i j Hi Hj; [lia|]. cbn [rows]. destruct i as [|i]; cbn [nth].
  - rewrite firstn_nth by assumption. reflexivity.
  - rewrite IH by lia. rewrite skipn_nth. f_equal. cbn [Nat.mul]. lia.
Qed.
Lemma rows_width k n : forall l, length l = k * n -> forall r, In r (rows k n l) -> length r = n.
Proof.
  induction k as [|k IH]; intros l Hl r; [intros []|]. cbn [rows Nat.mul] in *. intros [<-|Hr].
  - rewrite firstn_length. lia.
  - apply (IH (skipn n l)); [rewrite skipn_length; lia|assumption].
Qed.

Section File.
Variables (pre b0 b1 b2 b3 : list text) (h0 h1 h2 h3 : text) (f0 f1 f2 f3 : list text) (v0 v1 v2 v3 : list Qc).
Hypothesis Hpre : lines_of [] pre.
Hypothesis Hh0 : header h0. Hypothesis Hh1 : header h1. Hypothesis Hh2 : header h2. Hypothesis Hh3 : header h3.
Hypothesis L0 : lines_of f0 b0. Hypothesis L1 : lines_of f1 b1. Hypothesis L2 : lines_of f2 b2. Hypothesis L3 : lines_of f3 b3.
Hypothesis S0 : Forall2 shows f0 v0. Hypothesis S1 : Forall2 shows f1 v1. Hypothesis S2 : Forall2 shows f2 v2. Hypothesis S3 : Forall2 shows f3 v3.
Let file := pre ++ h0 :: b0 ++ h1 :: b1 ++ h2 :: b2 ++ h3 :: b3.
Hypothesis Herr : forall l, In l file -> ~ mentions error_text l.

Lemma file_headers : header_lines 0 file =
  [length pre; S (length pre + length b0); S (S (length pre + length b0) + length b1);
   S (S (S (length pre + length b0) + length b1) + length b2)].
Proof.
  unfold file. rewrite header_lines_skip by (intros l Hl; now apply (lines_not_header [] pre Hpre [] (Forall2_nil _))).
  cbn [header_lines plus]. rewrite (header_is h0 Hh0). f_equal.
  rewrite header_lines_skip by (intros l Hl; now apply (lines_not_header f0 b0 L0 v0 S0)).
  cbn [header_lines plus]. rewrite (header_is h1 Hh1). f_equal.
  rewrite header_lines_skip by (intros l Hl; now apply (lines_not_header f1 b1 L1 v1 S1)).
  cbn [header_lines plus]. rewrite (header_is h2 Hh2). f_equal.
  rewrite header_lines_skip by (intros l Hl; now apply (lines_not_header f2 b2 L2 v2 S2)).
  cbn [header_lines plus]. rewrite (header_is h3 Hh3). f_equal.
  rewrite <- (app_nil_r b3). rewrite header_lines_skip by (intros l Hl; now apply (lines_not_header f3 b3 L3 v3 S3)). reflexivity.
Qed.
Theorem read_matrix_file : read_matrix file =
  match times v2 v1 with
  | None => BadShape
  | Some sd => if length v3 =? length v1 * length v1 then Data v0 v1 sd (rows (length v1) (length v1) v3) else BadShape
  end.
Proof.
  unfold read_matrix.
  assert (E : existsb (occurs error_text) file = false).
  { apply not_true_is_false. intros H. apply existsb_exists in H as (l & Hl & Ho). apply occurs_spec in Ho. exact (Herr l Hl Ho). }
  rewrite E, file_headers.
  assert (B0 : lines_between (S (length pre)) (S (length pre + length b0)) file = b0).
  { change (S (length pre + length b0)) with (S (length pre) + length b0).
    replace file with ((pre ++ [h0]) ++ b0 ++ h1 :: b1 ++ h2 :: b2 ++ h3 :: b3) by (unfold file; now rewrite <- app_assoc).
    apply between_mid. rewrite app_length. cbn. lia. }
  assert (B1 : lines_between (S (S (length pre + length b0))) (S (S (length pre + length b0) + length b1)) file = b1).
  { change (S (S (length pre + length b0) + length b1)) with (S (S (length pre + length b0)) + length b1).
    replace file with ((pre ++ h0 :: b0 ++ [h1]) ++ b1 ++ h2 :: b2 ++ h3 :: b3) by (unfold file; rewrite <- app_assoc; cbn [app]; now rewrite <- app_assoc).
    apply between_mid. repeat (rewrite app_length; cbn [length]). lia. }
  assert (B2 : lines_between (S (S (S (length pre + length b0) + length b1))) (S (S (S (length pre + length b0) + length b1) + length b2)) file = b2).
  { change (S (S (S (length pre + length b0) + length b1) + length b2)) with (S (S (S (length pre + length b0) + length b1)) + length b2).
    replace file with ((pre ++ h0 :: b0 ++ h1 :: b1 ++ [h2]) ++ b2 ++ h3 :: b3)
      by (unfold file; repeat (rewrite <- app_assoc; cbn [app]); reflexivity).
    apply between_mid. repeat (rewrite app_length; cbn [length]). lia. }
  assert (B3 : lines_between (S (S (S (S (length pre + length b0) + length b1) + length b2))) (length file) file = b3).
  { set (x := S (S (S (S (length pre + length b0) + length b1) + length b2))).
    assert (Lf : length file = x + length b3).
    { unfold file, x. repeat (rewrite app_length; cbn [length]). lia. }
    rewrite Lf. replace file with ((pre ++ h0 :: b0 ++ h1 :: b1 ++ h2 :: b2 ++ [h3]) ++ b3 ++ [])
      by (unfold file; rewrite app_nil_r; repeat (rewrite <- app_assoc; cbn [app]); reflexivity).
    apply between_mid. unfold x. repeat (rewrite app_length; cbn [length]). lia. }
  rewrite B0, B1, B2, B3, (block_ok f0 v0 b0 L0 S0), (block_ok f1 v1 b1 L1 S1), (block_ok f2 v2 b2 L2 S2), (block_ok f3 v3 b3 L3 S3).
  reflexivity.
Qed.
End File.

(** Sizes of whatever is read. *)
Lemma read_matrix_sizes ls g x s c : read_matrix ls = Data g x s c -> length c = length x /\ forall r, In r c -> length r = length x.
Proof.
  unfold read_matrix. destruct (existsb _ ls); [discriminate|]. destruct (header_lines 0 ls) as [|n0 [|n1 [|n2 [|n3 t]]]]; try discriminate.
  destruct (times _ _); [|discriminate]. destruct (length _ =? _) eqn:E; [|discriminate]. intros H. injection H as _ <- _ <-.
  apply Nat.eqb_eq in E. split; [apply rows_length|]. now apply rows_width.
Qed.
