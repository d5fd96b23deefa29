(** Property theorems C10 and C11: writing ACE text, find and replace. *)
From Verif Require Import Text AceText_Model AceText_Spec AceText_Proofs.
From Coq Require Import ZArith.

(** C10: reading a file with at least one line after its header, writing it and
    reading it again keeps the header lines, and keeps the data words exactly
    when no word outside the first column has 20 characters or more. *)
Theorem C10_write_roundtrip_iff : forall f w n,
  read_ace f = Some w -> header_count (lines f) = Some n -> n < length (lines f) ->
  let data := words (concat (skipn n (lines f))) in
  exists w', read_ace (write_ace w) = Some w' /\ header w' = firstn n (lines f) /\
    (words (single w') = data <->
     forall i x, nth_error data i = Some x -> i mod 4 <> 0 -> length x < 20).
Proof. exact roundtrip_iff. Qed.
Print Assumptions C10_write_roundtrip_iff.

(** The one-line form holds the file's words, and its header lines. *)
Theorem C10_read_words : forall f w n,
  read_ace f = Some w -> header_count (lines f) = Some n ->
  words (single w) = words (concat (skipn n (lines f))) /\ header w = firstn n (lines f).
Proof. exact read_words. Qed.
Print Assumptions C10_read_words.

(** How many lines that is: 15 where the second character of the file's first word is a
    point (2.0.1 ...), else 12; without such a character the file is not read. *)
Theorem C10_header : forall f,
  (forall l ls a d v ws, lines f = l :: ls -> words l = (a :: d :: v) :: ws ->
    exists w, read_ace f = Some w /\
      (d = "."%char -> header w = firstn 15 (lines f) /\ words (single w) = words (concat (skipn 15 (lines f)))) /\
      (d <> "."%char -> header w = firstn 12 (lines f) /\ words (single w) = words (concat (skipn 12 (lines f))))) /\
  ((lines f = [] \/ exists l ls, lines f = l :: ls /\ (words l = [] \/ exists v ws, words l = v :: ws /\ length v < 2)) -> read_ace f = None).
Proof.
  intros f. split.
  - intros l ls a d v ws E W. assert (H : header_count (lines f) = Some (if eqc d "."%char then 15 else 12)) by (unfold header_count; now rewrite E, W).
    assert (exists w, read_ace f = Some w) as (w & R) by (unfold read_ace; rewrite H; eexists; reflexivity). exists w. split; [exact R|].
    destruct (C10_read_words f w _ R H) as [Hw Hh]. split; intros Hd.
    + subst d. now split.
    + destruct (eqc d "."%char) eqn:Ed; [|now split]. exfalso. apply Hd. now apply Ascii.eqb_eq in Ed.
  - intros H. unfold read_ace, header_count. destruct H as [->|(l & ls & -> & [->|(v & ws & -> & Hv)])]; try reflexivity. destruct v as [|a [|d v]]; cbn [length] in Hv; [reflexivity|reflexivity|lia].
Qed.
Print Assumptions C10_header.

(** At most four words on every data line written. *)
Theorem C10_four_per_line : forall w, exists data,
  write_ace w = concat (header w) ++ data /\
  forall l, In l (lines data) -> length (words l) <= 4.
Proof.
  intros w. exists (body 0 (words (single w))). split; [reflexivity|]. apply four_per_line.
Qed.
Print Assumptions C10_four_per_line.

(** Numbers printed with '.11E' are always short enough. *)
Theorem C10_formatted_fits : forall t, e11 t -> word t /\ length t <= 19.
Proof. exact e11_word. Qed.
Print Assumptions C10_formatted_fits.

(** C11: what a successful replacement does, character by character. *)
Theorem C11_replace_frame : forall A (fmt : A -> text) w arr new count w',
  (forall v, word (fmt v)) -> arr <> [] ->
  replace_array fmt w arr new count = Done w' ->
  let old := join (map fmt arr) in
  let k := if Z.ltb count 0 then length (single w) else Z.to_nat count in
  header w' = header w /\ length arr = length new /\
  exists ps last,
    single w = weave old ps last /\ single w' = weave (join (map fmt new)) ps last /\
    length ps <= k /\ (1 <= k -> 1 <= length ps) /\
    Forall (leftmost old) ps /\ (length ps < k -> ~ contains old last).
Proof.
  intros A fmt w arr new count w' Hf Ha H. apply (replace_spec fmt w arr new count w'); [|exact H].
  now apply format_nonnil.
Qed.
Print Assumptions C11_replace_frame.

(** It raises exactly on a length mismatch or an absent block; [LengthMismatch]
    and [NotFound] carry no state: nothing was changed. *)
Theorem C11_raises_iff : forall A (fmt : A -> text) w arr new count,
  (replace_array fmt w arr new count = LengthMismatch <-> length arr <> length new) /\
  (replace_array fmt w arr new count = NotFound <->
     length arr = length new /\ ~ contains (join (map fmt arr)) (single w)).
Proof. intros. apply replace_fails. Qed.
Print Assumptions C11_raises_iff.

(** On word boundaries exactly the words of the block change. *)
Theorem C11_words_frame : forall A (fmt : A -> text) w arr new ps last w',
  (forall v, word (fmt v)) -> length arr = length new ->
  single w = weave (join (map fmt arr)) ps last ->
  single w' = weave (join (map fmt new)) ps last ->
  bounded true ps last ->
  words (single w) = weave_words (map fmt arr) ps last /\
  words (single w') = weave_words (map fmt new) ps last /\
  length (words (single w')) = length (words (single w)).
Proof.
  intros A fmt w arr new ps last w' Hf Hl E1 E2 Hb.
  pose proof (format_words fmt arr Hf) as F1. pose proof (format_words fmt new Hf) as F2.
  unfold format_mcnp in *.
  rewrite E1, E2, !(weave_read _ ps last true Hb), F1, F2.
  split; [reflexivity|]. split; [reflexivity|].
  apply weave_words_length. now rewrite !map_length.
Qed.
Print Assumptions C11_words_frame.

(** ... and the written file still reads back. *)
Theorem C11_room_kept : forall A (fmt : A -> text) w arr new ps last,
  (forall v, e11 (fmt v)) -> bounded true ps last ->
  single w = weave (join (map fmt arr)) ps last ->
  Forall (fun x => length x < 20) (words (single w)) ->
  Forall (fun x => length x < 20) (words (weave (join (map fmt new)) ps last)).
Proof. intros A fmt w arr new ps last H1 H2 H3 H4. exact (replace_room fmt w arr new ps last true H1 H2 H3 H4). Qed.
Print Assumptions C11_room_kept.

(** "A replacement never touches a word that is not in the block" is false: the
    block may start inside a negative number. *)
Definition one : text := str "1.00000000000E+00".
Definition two : text := str "2.00000000000E+00".
Definition minus_one : text := str "-1.00000000000E+00".
Definition minus_two : text := str "-2.00000000000E+00".

Theorem C11_only_block_words_change_refuted :
  exists (fmt : bool -> text) w arr new w',
    (forall v, e11 (fmt v)) /\
    replace_array fmt w arr new 1 = Done w' /\
    map fmt arr = [one] /\ words (single w) = [minus_one; one] /\
    words (single w') = [minus_two; one].
Proof.
  exists (fun b : bool => if b then one else two),
    {| single := minus_one ++ [sp] ++ one ++ [sp]; header := [] |}, [true], [false],
    {| single := minus_two ++ [sp] ++ one ++ [sp]; header := [] |}.
  split.
  - intros b. exists [], (if b then "1"%char else "2"%char), (str "00000000000"), "+"%char, (str "00").
    assert (D : forall c, (48 <=? nat_of_ascii c) && (nat_of_ascii c <=? 57) = true -> digit c).
    { intros c Hc. apply andb_true_iff in Hc as [H1 H2]. apply Nat.leb_le in H1, H2. now split. }
    split; [destruct b; reflexivity|]. split; [now left|]. split; [destruct b; now apply D|].
    split; [repeat (constructor; [now apply D|]); constructor|]. split; [reflexivity|].
    split; [now left|]. split; [repeat (constructor; [now apply D|]); constructor|now left].
  - vm_compute. repeat split.
Qed.
Print Assumptions C11_only_block_words_change_refuted.

(** Non-trivial instances. *)
Definition ex_header : text := concat (repeat (str "92235.70c 233 hdr" ++ [nl]) 12).
Definition ex_file : text :=
  ex_header ++ str "   1.00000000000E+00   2.00000000000E+00  3 4" ++ [nl] ++ str "  5  6 " ++ [nl].
Example C10_hypotheses_met : exists w,
  read_ace ex_file = Some w /\ header_count (lines ex_file) = Some 12 /\ 12 < length (lines ex_file) /\
  words (single w) = [one; two; str "3"; str "4"; str "5"; str "6"].
Proof.
  eexists. split; [reflexivity|]. split; [reflexivity|]. split; [vm_compute; lia|]. vm_compute. reflexivity.
Qed.

Example C11_hypotheses_met : exists w w' ps last (fmt : bool -> text),
  (forall v, word (fmt v)) /\ replace_array fmt w [true; false] [false; false] 1 = Done w' /\
  single w = weave (join (map fmt [true; false])) ps last /\
  single w' = weave (join (map fmt [false; false])) ps last /\
  bounded true ps last /\ ps <> [].
Proof.
  exists {| single := minus_one ++ [sp] ++ one ++ [sp] ++ two ++ [sp]; header := [] |}.
  eexists. exists [minus_one ++ [sp]], [sp], (fun b : bool => if b then one else two).
  split; [intros [|]; apply wordb_word; reflexivity|].
  split; [reflexivity|]. split; [reflexivity|]. split; [reflexivity|].
  split; [|discriminate]. cbn. repeat split; auto.
Qed.
(** Files of the newer and older kind and one that is not read. *)
Example C10_header_hypotheses_met :
  option_map words (nth_error (lines (str "2.0.1 92235.00c" ++ [nl])) 0) = Some [str "2.0.1"; str "92235.00c"] /\
  option_map words (nth_error (lines (str "92235.70c 233" ++ [nl])) 0) = Some [str "92235.70c"; str "233"] /\
  option_map words (nth_error (lines (str "7 x" ++ [nl])) 0) = Some [str "7"; str "x"].
Proof. split; [vm_compute; reflexivity|]. split; vm_compute; reflexivity. Qed.
