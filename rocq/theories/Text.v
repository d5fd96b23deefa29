(** Character strings as lists of characters (code points 0..255), and the
    Python string operations the modelled code uses. *)
From Coq Require Export Ascii String List Bool Arith Lia.
From Coq Require Import ZArith.
Export ListNotations.
Local Open Scope list_scope.

Definition text := list ascii.
Definition str (s : string) : text := list_ascii_of_string s.
Definition sp : ascii := " "%char.
Definition nl : ascii := "010"%char.

Definition eqc (a b : ascii) : bool := Ascii.eqb a b.
Fixpoint eqt (a b : text) : bool :=
  match a, b with
  | [], [] => true
  | x :: a', y :: b' => eqc x y && eqt a' b'
  | _, _ => false
  end.

(** Python [str.isspace] on code points below 256. *)
Definition is_space (c : ascii) : bool :=
  let n := nat_of_ascii c in
  ((9 <=? n) && (n <=? 13)) || ((28 <=? n) && (n <=? 32)) || (n =? 133) || (n =? 160).

Definition head_space (s : text) : bool :=
  match s with [] => true | d :: _ => is_space d end.
Definition cons_head (c : ascii) (ws : list text) : list text :=
  match ws with [] => [[c]] | w :: r => (c :: w) :: r end.

(** Python [str.split()]. *)
Fixpoint words (s : text) : list text :=
  match s with
  | [] => []
  | c :: r => if is_space c then words r
              else if head_space r then [c] :: words r
              else cons_head c (words r)
  end.

(** Python file iteration / [readlines] (newlines already translated). *)
Fixpoint lines (s : text) : list text :=
  match s with
  | [] => []
  | c :: r => if eqc c nl then [c] :: lines r else cons_head c (lines r)
  end.

(** Python [' '.join(ws)]. *)
Fixpoint join (ws : list text) : text :=
  match ws with
  | [] => []
  | [w] => w
  | w :: r => w ++ sp :: join r
  end.

(** Python ['{0:>n}'.format(s)] for a string. *)
Definition pad (n : nat) (w : text) : text := repeat sp (n - length w) ++ w.

(** A word: non-empty, no white space. *)
Definition wordb (w : text) : bool := negb (eqt w []) && forallb (fun c => negb (is_space c)) w.
Definition word (w : text) : Prop := w <> [] /\ forall c, In c w -> is_space c = false.

(** [s.startswith(p)], returning the rest. *)
Fixpoint strip (p s : text) : option text :=
  match p, s with
  | [], _ => Some s
  | a :: p', b :: s' => if eqc a b then strip p' s' else None
  | _, [] => None
  end.

(** ** Basic facts *)
Lemma eqc_eq a b : eqc a b = true <-> a = b.
Proof. apply Ascii.eqb_eq. Qed.
Lemma eqc_refl a : eqc a a = true.
Proof. apply Ascii.eqb_refl. Qed.
Lemma eqc_neq a b : eqc a b = false <-> a <> b.
Proof. apply Ascii.eqb_neq. Qed.
Lemma eqt_eq a : forall b, eqt a b = true <-> a = b.
Proof.
  induction a as [|x a IH]; intros [|y b]; cbn; try (split; congruence).
  rewrite andb_true_iff, eqc_eq, IH. split; [intros [-> ->]|intros [= -> ->]]; auto.
Qed.
Lemma eqt_refl a : eqt a a = true.
Proof. now apply eqt_eq. Qed.

Lemma is_space_sp : is_space sp = true. Proof. reflexivity. Qed.
Lemma is_space_nl : is_space nl = true. Proof. reflexivity. Qed.

Lemma wordb_word w : wordb w = true <-> word w.
Proof.
  unfold wordb, word. rewrite andb_true_iff, negb_true_iff, forallb_forall.
  split; intros [H1 H2]; split.
  - intros ->. discriminate.
  - intros c Hc. apply H2 in Hc. now destruct (is_space c).
  - destruct w; [congruence|reflexivity].
  - intros c Hc. now rewrite (H2 c Hc).
Qed.

Lemma words_cons c r : words (c :: r) =
  if is_space c then words r else if head_space r then [c] :: words r else cons_head c (words r).
Proof. reflexivity. Qed.

Lemma words_nonnil s : head_space s = false -> words s <> [].
Proof.
  destruct s as [|c r]; cbn [head_space]; [discriminate|]. intros H. rewrite words_cons, H.
  destruct (head_space r); [discriminate|]. destruct (words r); discriminate.
Qed.

Lemma words_head c s : is_space c = false ->
  exists w ws, words (c :: s) = (c :: w) :: ws.
Proof.
  intros H. rewrite words_cons, H. destruct (head_space s); [now exists [], (words s)|].
  destruct (words s) as [|w ws]; [now exists [], []|now exists w, ws].
Qed.

Lemma words_word s : forall w, In w (words s) -> word w.
Proof.
  induction s as [|c r IH]; cbn [words]; intros w H; [destruct H|].
  destruct (is_space c) eqn:E; [auto|].
  destruct (head_space r).
  - destruct H as [<-|H]; [|auto]. split; [discriminate|]. intros d [<-|[]]. exact E.
  - destruct (words r) as [|w0 ws]; cbn [cons_head] in H.
    + destruct H as [<-|[]]. split; [discriminate|]. intros d [<-|[]]. exact E.
    + destruct H as [<-|H]; [|apply IH; now right].
      split; [discriminate|]. intros d [<-|Hd]; [exact E|].
      apply (IH w0); [now left|exact Hd].
Qed.

(** Appending at a boundary. *)
Lemma words_app_r a b : head_space b = true -> words (a ++ b) = words a ++ words b.
Proof.
  intros Hb. induction a as [|c a IH]; [reflexivity|].
  cbn [app]. rewrite !words_cons, IH. destruct (is_space c); [reflexivity|].
  destruct a as [|d a]; cbn [app head_space] in *.
  - rewrite Hb. reflexivity.
  - destruct (is_space d) eqn:Ed; [reflexivity|].
    destruct (words_head d a Ed) as (w & ws & ->). reflexivity.
Qed.

Definition ends_space (a : text) : bool := head_space (rev a).
Lemma words_app_l a b : ends_space a = true -> words (a ++ b) = words a ++ words b.
Proof.
  unfold ends_space. intros Ha. induction a as [|c a IH]; [reflexivity|].
  cbn [app]. rewrite !words_cons.
  destruct a as [|d a].
  - cbn in Ha. rewrite Ha. reflexivity.
  - assert (Ha' : head_space (rev (d :: a)) = true).
    { cbn [rev] in Ha. rewrite <- app_assoc in Ha. cbn [rev].
      destruct (rev a); cbn in *; exact Ha. }
    rewrite (IH Ha'). destruct (is_space c); [reflexivity|]. cbn [app head_space].
    destruct (is_space d) eqn:Ed; [reflexivity|].
    destruct (words_head d a Ed) as (w & ws & ->). reflexivity.
Qed.

Lemma words_spaces n s : words (repeat sp n ++ s) = words s.
Proof. induction n; [reflexivity|]. cbn [repeat app]. rewrite words_cons, is_space_sp. exact IHn. Qed.

Lemma words_one w : word w -> words w = [w].
Proof.
  induction w as [|c w IH]; intros [H1 H2]; [congruence|].
  rewrite words_cons, (H2 c) by now left.
  destruct w as [|d w]; [reflexivity|]. cbn [head_space]. rewrite (H2 d) by (right; now left).
  rewrite IH; [reflexivity|]. split; [discriminate|]. intros e He. apply H2. now right.
Qed.

Lemma words_join ws : Forall word ws -> words (join ws) = ws.
Proof.
  induction ws as [|w ws IH]; intros H; [reflexivity|].
  inversion H as [|? ? Hw Hws]; subst. destruct ws as [|w' ws]; [now apply words_one|].
  change (join (w :: w' :: ws)) with (w ++ sp :: join (w' :: ws)).
  rewrite words_app_r by reflexivity. rewrite words_one by exact Hw.
  rewrite words_cons, is_space_sp, IH by exact Hws. reflexivity.
Qed.

Lemma words_pad n w : word w -> words (pad n w) = [w].
Proof. intros H. unfold pad. rewrite words_spaces. now apply words_one. Qed.

(** Lines. *)
Lemma concat_lines s : concat (lines s) = s.
Proof.
  induction s as [|c r IH]; [reflexivity|]. cbn [lines]. destruct (eqc c nl); cbn; [now rewrite IH|].
  destruct (lines r) as [|l ls] eqn:E; cbn in *; now rewrite <- IH.
Qed.

Definition ended (l : text) : Prop := exists b, l = b ++ [nl] /\ ~ In nl b.

Lemma lines_ended l s : ended l -> lines (l ++ s) = l :: lines s.
Proof.
  intros (b & -> & Hb). rewrite <- app_assoc. cbn [app].
  induction b as [|c b IH]; [reflexivity|]. cbn [app lines].
  destruct (eqc c nl) eqn:E; [apply eqc_eq in E; subst; exfalso; apply Hb; now left|].
  rewrite IH; [reflexivity|]. intros H. apply Hb. now right.
Qed.

Lemma lines_ended_all ls s : Forall ended ls -> lines (concat ls ++ s) = ls ++ lines s.
Proof.
  induction 1 as [|l ls H _ IH]; [reflexivity|]. cbn [concat]. rewrite <- app_assoc.
  now rewrite lines_ended, IH.
Qed.

(** Every line but the last ends with a newline. *)
Lemma lines_ended_firstn s : forall n, n < length (lines s) -> Forall ended (firstn n (lines s)).
Proof.
  induction s as [|c r IH]; intros n Hn; [cbn in Hn; lia|]. cbn [lines] in *.
  destruct (eqc c nl) eqn:E.
  - destruct n as [|n]; [constructor|]. cbn in *. constructor; [|apply IH; lia].
    apply eqc_eq in E; subst. exists []. cbn. auto.
  - destruct (lines r) as [|l ls] eqn:El; cbn [cons_head length] in *.
    + destruct n; [constructor|lia].
    + destruct n as [|n]; [constructor|]. cbn [firstn] in *.
      specialize (IH (S n) Hn). cbn [firstn] in IH. inversion IH as [|? ? H1 H2]; subst.
      constructor; [|exact H2]. destruct H1 as (b & -> & Hb).
      exists (c :: b). split; [reflexivity|]. intros [->|H]; [now rewrite eqc_refl in E|tauto].
Qed.

Lemma strip_Some p : forall s r, strip p s = Some r <-> s = p ++ r.
Proof.
  induction p as [|a p IH]; intros s r; cbn.
  - split; congruence.
  - destruct s as [|b s]; [split; discriminate|].
    destruct (eqc a b) eqn:E.
    + apply eqc_eq in E; subst. rewrite IH. split; [now intros ->|now intros [= ->]].
    + split; [discriminate|]. intros [= -> ->]. now rewrite eqc_refl in E.
Qed.

Lemma strip_None p s : strip p s = None <-> forall r, s <> p ++ r.
Proof.
  split.
  - intros H r E. apply strip_Some in E. congruence.
  - intros H. destruct (strip p s) as [r|] eqn:E; [|reflexivity].
    apply strip_Some in E. now apply H in E.
Qed.
