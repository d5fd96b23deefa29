(** C95: opening an ACE library and picking a table. *)
From Coq Require Import ZArith NArith List Bool Arith Ascii String Lia.
From Verif Require Import Text Dec PyNum Lib_Model Lib_Spec Lib_Proofs Lib_Text_Proofs Lib_Props Get_Model Get_Spec.
Import ListNotations.
Local Open Scope nat_scope.

Lemma decodes_iff b : decodes b = true <-> Forall seven_bits b.
Proof.
  unfold decodes, seven_bits. rewrite forallb_forall, Forall_forall. split; intros H c I; specialize (H c I); [apply Nat.ltb_lt in H; lia|apply Nat.ltb_lt; lia].
Qed.
Lemma picks {D} (ts : list (table D)) name o : picked ts name o -> match name with None => nth_error ts 0 | Some n => find (fun t => eqt (t_name t) n) ts end = o.
Proof.
  intros P. destruct P as [t r -> | -> | n l t r -> E H | n H]; [reflexivity|reflexivity| |].
  - induction l as [|u l IH]; cbn [app find].
    + destruct (eqt (t_name t) n) eqn:X; [reflexivity|]. exfalso. rewrite E, (proj2 (eqt_eq n n) eq_refl) in X. discriminate.
    + destruct (eqt (t_name u) n) eqn:X; [exfalso; apply (H u); [now left|now apply eqt_eq]|]. apply IH. intros w I. apply H. now right.
  - induction ts as [|u ts IH]; cbn [find]; [reflexivity|]. destruct (eqt (t_name u) n) eqn:X; [exfalso; apply (H u); [now left|now apply eqt_eq]|]. apply IH. intros w I. apply H. now right.
Qed.

(** From a text file whose first lines are ASCII. *)
Theorem C95_text : forall D (F : floats D), proper F -> forall f ts repair name o, even_text F (lines f) ts -> Forall seven_bits (concat (firstn 10 (lines f))) -> picked ts name o ->
  get_table F repair f name = o.
Proof.
  intros D F P f ts repair name o E A K. destruct (C56_agree D F P _ _ E) as (b & _ & _ & R). unfold get_table, library. rewrite (proj2 (decodes_iff _) A), R. now apply picks.
Qed.
Print Assumptions C95_text.
(** From its conversion, if that has another byte in its first lines. *)
Theorem C95_binary : forall D (F : floats D), proper F -> forall ls ts repair name o, library_text F ls ts -> picked ts name o ->
  exists b, ascii_to_binary F ls = Some b /\ (~ Forall seven_bits (concat (firstn 10 (lines b))) -> get_table F repair b name = o).
Proof.
  intros D F P ls ts repair name o L K. destruct (C41_round_trip D F P ls ts L) as (b & B & _ & R & _). exists b. split; [exact B|]. intros N. unfold get_table, library.
  destruct (decodes _) eqn:X; [exfalso; apply N; now apply decodes_iff|]. rewrite R. now apply picks.
Qed.
Print Assumptions C95_binary.
(** So both give the same. *)
Theorem C95_agree : forall D (F : floats D), proper F -> forall f ts repair repair' name, even_text F (lines f) ts -> Forall seven_bits (concat (firstn 10 (lines f))) ->
  exists b, ascii_to_binary F (lines f) = Some b /\ (~ Forall seven_bits (concat (firstn 10 (lines b))) -> get_table F repair f name = get_table F repair' b name).
Proof.
  intros D F P f ts repair repair' name E A. assert (exists o, picked ts name o) as (o & K).
  { destruct name as [n|]; [|destruct ts as [|t r]; [exists None; now constructor|exists (Some t); econstructor; reflexivity]]. clear E. induction ts as [|t ts [o K]]; [exists None; constructor; intros u []|].
    destruct (eqt (t_name t) n) eqn:X.
    - exists (Some t). apply (picked_name _ n [] t ts); [reflexivity|now apply eqt_eq|intros u []].
    - assert (t_name t <> n) as N by (intros Y; apply eqt_eq in Y; congruence). inversion K as [| |? l u r E En Hl|? Hn]; subst.
      + eexists. apply (picked_name _ (t_name u) (t :: l) u r); [reflexivity|reflexivity|intros w [<-|I]; [exact N|now apply Hl]].
      + eexists. apply picked_no_name. intros w [<-|I]; [exact N|now apply Hn]. }
  destruct (C95_binary D F P (lines f) ts repair' name o (even_library _ _ _ E) K) as (b & B & H). exists b. split; [exact B|]. intros N. rewrite (H N). exact (C95_text D F P f ts repair name o E A K).
Qed.
Print Assumptions C95_agree.
(** Not so: that every conversion can be opened.  One whose first lines happen to be ASCII is
    taken for text.  (Stand-in floats.) *)
Definition plain : list text :=
  [ln " 1001.70c            2           3"; ln "a title"] ++ repeat (ln "1 2 3 4 5 6 7 8") 4 ++ [ln "5 0 0 0 0 0 0 0"; ln "0 0 0 0 0 0 0 0"] ++ repeat (ln "1 0 0 0 0 0 0 1") 4 ++ [ln "1 2 3 4"; ln "5"].
Theorem C95_ascii_refuted : exists b t, ascii_to_binary F0 plain = Some b /\ read_bin F0 None b = Some [t] /\ Forall seven_bits (concat (firstn 10 (lines b))) /\
  forall name, get_table F0 (fun l => l) b name = None.
Proof.
  assert (X : match ascii_to_binary F0 plain with Some b => match read_bin F0 None b with Some [_] => decodes (concat (firstn 10 (lines b))) && match library F0 (fun l => l) None b with None => true | _ => false end | _ => false end | None => false end = true) by (vm_compute; reflexivity).
  destruct (ascii_to_binary F0 plain) as [b|]; [|discriminate]. destruct (read_bin F0 None b) as [[|t [|]]|] eqn:R; try discriminate. apply andb_true_iff in X as [X Y]. exists b, t. split; [reflexivity|]. split; [exact R|].
  split; [now apply decodes_iff|]. intros name. unfold get_table. destruct (library F0 (fun l => l) None b); [discriminate|reflexivity].
Qed.
Print Assumptions C95_ascii_refuted.

(** *** Examples *)
Example C95_hypotheses_met : let f := concat (ls1 ++ pre2 ++ ls2) in even_text F0 (lines f) [t1; t2] /\ Forall seven_bits (concat (firstn 10 (lines f))) /\
  picked [t1; t2] (Some (str "8016.70c")) (Some t2) /\ picked [t1; t2] (Some (str "92235.70c")) None /\
  match ascii_to_binary F0 (lines f) with Some b => decodes (concat (firstn 10 (lines b))) | None => true end = false.
Proof.
  cbn zeta. assert (E : lines (concat (ls1 ++ pre2 ++ ls2)) = ls1 ++ pre2 ++ ls2 ++ []) by (vm_compute; reflexivity). rewrite E. split; [exact demo_even|]. split; [apply decodes_iff; vm_compute; reflexivity|].
  split; [apply (picked_name _ _ [t1] t2 []); [reflexivity|reflexivity|intros u [<-|[]]; discriminate]|]. split; [apply picked_no_name; intros u [<-|[<-|[]]]; discriminate|]. vm_compute. reflexivity.
Qed.
