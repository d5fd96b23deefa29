(** C41, C56: ACE libraries as text and binary. *)
From Coq Require Import ZArith NArith List Bool Arith Ascii String Lia.
From Verif Require Import Text Dec PyNum Lib_Model Lib_Spec Lib_Proofs Lib_Text_Proofs.
Import ListNotations.
Local Open Scope nat_scope.

(** A library of any number of tables of any length, converted, is a whole number of
    records; reading it gives the tables, or those asked for. *)
Theorem C41_round_trip : forall D (F : floats D), proper F -> forall ls ts, library_text F ls ts ->
  exists b, ascii_to_binary F ls = Some b /\ (exists k, List.length b = 4096 * k) /\ read_bin F None b = Some ts /\
    forall ws, read_bin F (Some ws) b = Some (filter (fun t => existsb (eqt (t_name t)) ws) ts).
Proof.
  intros D F P ls ts H. destruct (binary_round F P ls ts H) as (b & B1 & B2 & B3). exists b. split; [exact B1|]. split; [exact B2|]. split; [|intros ws; exact (B3 (Some ws))].
  rewrite (B3 None). f_equal. clear. induction ts; cbn; congruence.
Qed.
Print Assumptions C41_round_trip.
(** Every table takes one record and as many as its data needs. *)
Theorem C41_records : forall D (F : floats D), proper F -> forall ls ts r t, table_text F ls t -> library_text F r ts ->
  exists b c, ascii_to_binary F (ls ++ r) = Some (b ++ c) /\ ascii_to_binary F ls = Some b /\ ascii_to_binary F r = Some c /\
    List.length b = 4096 * (1 + (List.length (tl (t_xss t)) + 511) / 512).
Proof. exact @records. Qed.
Print Assumptions C41_records.
(** Both readers give the same tables. *)
Theorem C56_agree : forall D (F : floats D), proper F -> forall ls ts, even_text F ls ts ->
  exists b, ascii_to_binary F ls = Some b /\ read_bin F None b = Some ts /\ forall repair, read_ascii F repair None ls = Some ts.
Proof. exact @readers_agree. Qed.
Print Assumptions C56_agree.
(** The text reader skips as many lines as the header announces; the converter knows
    only three. *)
Theorem C56_header : forall D (F : floats D), proper F -> forall pre n ls t r ts repair, long_header F pre n t -> table_text F ls t -> even_lines ls -> even_text F r ts ->
  read_ascii F repair None (pre ++ ls ++ r) = Some (t :: ts).
Proof. exact @long_read. Qed.
Print Assumptions C56_header.
Theorem C56_header_refuted : forall D (F : floats D) pre n t rest, long_header F pre n t -> n <> str "3" -> ascii_to_binary F (pre ++ rest) = None.
Proof. exact @long_convert. Qed.
Print Assumptions C56_header_refuted.
(** From text no table can be read by name unless the file begins with it. *)
Theorem C56_selection_refuted : forall D (F : floats D) ls t ts repair ws, even_text F ls (t :: ts) ->
  existsb (eqt (t_name t)) ws = false -> read_ascii F repair (Some ws) ls = None.
Proof. exact @select_raises. Qed.
Print Assumptions C56_selection_refuted.

(** *** An example.  Stand-in floats: the 64-bit patterns of small integers are their
    first byte. *)
Definition pat : Type := ascii * (ascii * ascii * ascii * ascii * ascii * ascii * ascii).
Definition pat_of (z : Z) : option pat :=
  if ((0 <=? z) && (z <? 256))%Z then Some (ascii_of_N (Z.to_N z), (Ascii.zero, Ascii.zero, Ascii.zero, Ascii.zero, Ascii.zero, Ascii.zero, Ascii.zero)) else None.
Definition pat0 : pat := (Ascii.zero, (Ascii.zero, Ascii.zero, Ascii.zero, Ascii.zero, Ascii.zero, Ascii.zero, Ascii.zero)).
Definition F0 : floats pat := mkFloats pat
  (fun t => match py_int t with Some z => pat_of z | None => None end)
  (fun t => match int_prefix t with Some (z, b) => match pat_of z with Some d => Some (d, b) | None => None end | None => None end)
  (fun d => let '(a, (b, c, e, f, g, h, i)) := d in [a; b; c; e; f; g; h; i])
  (fun l => match l with [a; b; c; e; f; g; h; i] => (a, (b, c, e, f, g, h, i)) | _ => pat0 end)
  pat0.
Lemma F0_proper : proper F0.
Proof.
  split.
  - intros [a [[[[[[b c] e] f] g] h] i]]. reflexivity.
  - intros [a [[[[[[b c] e] f] g] h] i]]. reflexivity.
  - intros w d W. cbn. destruct (py_int w) as [z|] eqn:E; [|discriminate]. intros H. now rewrite (int_prefix_word w z W E), H.
Qed.
Definition ln (s : string) : text := str s ++ [nl].
Definition v (z : Z) : pat := match pat_of z with Some d => d | None => pat0 end.
Definition mk (name size : string) (ds : list text) : list text :=
  [str name ++ ln "           2           3"; ln "a title"] ++ repeat (ln "1 2 3 4 5 6 7 8") 4 ++ [str size ++ ln " 0 0 0 0 0 0 0"; ln "0 0 0 0 0 0 0 0"] ++ repeat (ln "1 0 0 0 0 0 0 -1") 4 ++ ds.
Definition tb (name : string) (n : Z) (l : list Z) : table pat :=
  mkTable (str name) (v 2) (v 3) (concat (repeat [(1%Z, v 2); (3%Z, v 4); (5%Z, v 6); (7%Z, v 8)] 4)) (0%Z :: n :: repeat 0%Z 15) (0%Z :: concat (repeat [1; 0; 0; 0; 0; 0; 0; -1]%Z 4)) (pat0 :: map v l).
Definition ls1 := mk " 1001.70c " "10" [ln "1 2 3 4"; ln "5 6 7 8"; ln "9 10"].
Definition ls2 := mk " 8016.70c " "5" [ln "1 2 3 4"; ln "5"].
Definition ls3 := mk " 8016.70c " "2" [ln "1 2"].
Definition t1 := tb "1001.70c" 10 [1; 2; 3; 4; 5; 6; 7; 8; 9; 10]%Z.
Definition t2 := tb "8016.70c" 5 [1; 2; 3; 4; 5]%Z.
Definition t3 := tb "8016.70c" 2 [1; 2]%Z.
Definition pre2 := [ln "2.0.0 8016.70c x"; ln "2 3 date 3"; ln "comment"].

Definition fitsb (z : Z) : bool := ((- 2 ^ 31 <=? z) && (z <? 2 ^ 31))%Z.
Lemma fitsb_ok z : fitsb z = true -> fits z.
Proof. unfold fitsb, fits. intros H. apply andb_true_iff in H. destruct H as [A B]. apply Z.leb_le in A. apply Z.ltb_lt in B. now split. Qed.
Lemma ints_ok : forall ws zs, all_some py_int ws = Some zs -> forallb fitsb zs = true -> Forall2 (fun w z => py_int w = Some z /\ fits z) ws zs.
Proof.
  intros ws zs H. apply all_some_inv in H. induction H as [|w z ws zs E _ IH]; intros B; [constructor|]. cbn [forallb] in B. apply andb_true_iff in B. destruct B as [B1 B2]. constructor; [split; [exact E | now apply fitsb_ok] | auto].
Qed.
Lemma pairs_ok : forall (pw : list (text * text)) (ps : list (Z * pat)), map (fun p => (py_int (fst p), flt F0 (snd p))) pw = map (fun q => (Some (fst q), Some (snd q))) ps -> forallb (fun q => fitsb (fst q)) ps = true ->
  Forall2 (fun p q => py_int (fst p) = Some (fst q) /\ flt F0 (snd p) = Some (snd q) /\ fits (fst q)) pw ps.
Proof.
  induction pw as [|p pw IH]; intros [|q ps] E B; try discriminate; [constructor|]. cbn [map forallb] in E, B. apply andb_true_iff in B. destruct B as [B1 B2]. injection E as E1 E2 E3. constructor; [|auto]. split; [exact E1|]. split; [exact E2 | now apply fitsb_ok].
Qed.
Ltac by_table nm sz c d ds n xs :=
  split; exists (str nm ++ ln "           2           3"), (ln "a title"), (repeat (ln "1 2 3 4 5 6 7 8") 4), [str sz ++ ln " 0 0 0 0 0 0 0"; ln "0 0 0 0 0 0 0 0"], (repeat (ln "1 0 0 0 0 0 0 -1") 4), ds; split; [reflexivity|]; split; [reflexivity|]; split; [reflexivity|]; split; [reflexivity|]; split; [cbn; lia|];
  split; [vm_compute; reflexivity|]; split; [vm_compute; reflexivity|]; split; [vm_compute; reflexivity|];
  split; [exists c, d; do 2 eexists; exists (str "3"), []; split; [reflexivity|]; split; [discriminate|]; split; [vm_compute; reflexivity|]; split; vm_compute; reflexivity|];
  split; [exists (concat (repeat [(str "1", str "2"); (str "3", str "4"); (str "5", str "6"); (str "7", str "8")] 4)); split; [vm_compute; reflexivity|]; split; [vm_compute; reflexivity|]; apply pairs_ok; vm_compute; reflexivity|];
  split; [exists (n :: repeat 0%Z 15); split; [reflexivity|]; split; [reflexivity|]; split; [apply ints_ok; vm_compute; reflexivity|]; exists (map v xs); split; [reflexivity|]; split; [reflexivity|]; split; [apply all_some_inv; vm_compute; reflexivity | reflexivity]|];
  exists (concat (repeat [1; 0; 0; 0; 0; 0; 0; -1]%Z 4)); split; [reflexivity|]; split; [reflexivity|]; apply ints_ok; vm_compute; reflexivity.
Lemma ok1 : table_text F0 ls1 t1.
Proof. by_table " 1001.70c "%string "10"%string "1"%char "0"%char [ln "1 2 3 4"; ln "5 6 7 8"; ln "9 10"] 10%Z [1; 2; 3; 4; 5; 6; 7; 8; 9; 10]%Z. Qed.
Lemma ok2 : table_text F0 ls2 t2.
Proof. by_table " 8016.70c "%string "5"%string "8"%char "0"%char [ln "1 2 3 4"; ln "5"] 5%Z [1; 2; 3; 4; 5]%Z. Qed.
Lemma ok3 : table_text F0 ls3 t3.
Proof. by_table " 8016.70c "%string "2"%string "8"%char "0"%char [ln "1 2"] 2%Z [1; 2]%Z. Qed.
Definition endedb (l : text) : bool := match rev l with c :: r => Ascii.eqb c nl && forallb (fun c => negb (Ascii.eqb c nl)) r | [] => false end.
Lemma endedb_ok ls : forallb endedb ls = true -> Forall ended ls.
Proof.
  intros H. rewrite forallb_forall in H. apply Forall_forall. intros l I. specialize (H l I). unfold endedb in H. destruct (rev l) as [|c r] eqn:E; [discriminate|]. apply andb_true_iff in H. destruct H as [H1 H2].
  apply Ascii.eqb_eq in H1. subst c. exists (rev r). split; [rewrite <- (rev_involutive l), E; reflexivity|]. rewrite <- in_rev. intros J. rewrite forallb_forall in H2. apply H2 in J. now rewrite Ascii.eqb_refl in J.
Qed.
Lemma demo_even : even_text F0 (ls1 ++ pre2 ++ ls2 ++ []) [t1; t2].
Proof.
  apply et_old; [exact ok1 | |].
  - split; [apply endedb_ok; vm_compute; reflexivity|]. exists (ln "1 2 3 4"), [ln "5 6 7 8"], (ln "9 10"). split; [reflexivity | repeat constructor].
  - apply et_new; [| exact ok2 | | apply et_nil].
    + do 10 eexists. split; [reflexivity|]. split; [reflexivity|]. split; [reflexivity|]. split; reflexivity.
    + split; [apply endedb_ok; vm_compute; reflexivity|]. exists (ln "1 2 3 4"), [], (ln "5"). split; [reflexivity | repeat constructor].
Qed.
Example C41_hypotheses_met : exists b, ascii_to_binary F0 (ls1 ++ pre2 ++ ls2 ++ []) = Some b /\ List.length b = 4096 * 4 /\ read_bin F0 (Some [str "8016.70c"]) b = Some [t2].
Proof.
  destruct (C41_round_trip pat F0 F0_proper _ _ (even_library _ _ _ demo_even)) as (b & B1 & _ & _ & B4). exists b. split; [exact B1|]. split; [|rewrite B4; reflexivity].
  assert (X : option_map (fun b => N.of_nat (List.length b)) (ascii_to_binary F0 (ls1 ++ pre2 ++ ls2 ++ [])) = Some 16384%N) by (vm_compute; reflexivity).
  rewrite B1 in X. cbn [option_map] in X. injection X as X. lia.
Qed.
Example C41_records_hypotheses_met : table_text F0 ls3 t3 /\ library_text F0 (ls1 ++ pre2 ++ ls2 ++ []) [t1; t2].
Proof. split; [exact ok3 | exact (even_library _ _ _ demo_even)]. Qed.
Example C56_hypotheses_met : even_text F0 (ls1 ++ pre2 ++ ls2 ++ []) [t1; t2] /\ existsb (eqt (t_name t1)) [str "8016.70c"] = false /\
  read_ascii F0 (fun w => w) None (ls1 ++ pre2 ++ ls2 ++ []) = Some [t1; t2].
Proof. split; [exact demo_even|]. split; [reflexivity | vm_compute; reflexivity]. Qed.
Definition pre5 := [ln "2.0.0 8016.70c x"; ln "2 3 date 5"; ln "one"; ln "two"; ln "three"].
Example C56_header_hypotheses_met : long_header F0 pre5 (str "5") t2 /\ read_ascii F0 (fun w => w) None (pre5 ++ ls2 ++ []) = Some [t2] /\
  ascii_to_binary F0 (pre5 ++ ls2 ++ []) = None.
Proof.
  split; [|split; vm_compute; reflexivity]. do 10 eexists. split; [reflexivity|]. split; [vm_compute; reflexivity|]. split; [vm_compute; reflexivity|]. split; [vm_compute; reflexivity|]. split; vm_compute; reflexivity.
Qed.
(** A table with a single line of data, unless it is the last, cannot be read from text. *)
Theorem C56_short_refuted : exists b, library_text F0 (ls3 ++ ls1) [t3; t1] /\ ascii_to_binary F0 (ls3 ++ ls1) = Some b /\ read_bin F0 None b = Some [t3; t1] /\
  read_ascii F0 (fun w => w) None (ls3 ++ ls1) = None.
Proof.
  assert (L : library_text F0 (ls3 ++ ls1) [t3; t1]) by (apply lt_old; [exact ok3|]; rewrite <- (app_nil_r ls1); apply lt_old; [exact ok1 | apply lt_nil]).
  destruct (C41_round_trip pat F0 F0_proper _ _ L) as (b & B1 & _ & B3 & _). exists b. split; [exact L|]. split; [exact B1|]. split; [exact B3|]. vm_compute. reflexivity.
Qed.
Print Assumptions C56_short_refuted.
(** A last number without the letter of its exponent is read as its mantissa; the
    repair is not called. *)
Theorem C56_last_refuted : flt F0 (str "5-120") = None /\ forall repair, read_ascii F0 repair None (mk " 8016.70c " "5" [ln "1 2 3 4"; ln "5-120"]) = Some [t2].
Proof. split; [reflexivity|]. intros repair. vm_compute. reflexivity. Qed.
Print Assumptions C56_last_refuted.
