(** C35, C36, C38, C53: ENDF-6 numbers, records, sections and materials. *)
From Verif Require Import Num Text Dec PyNum Endf_Model Endf_Spec Endf2_Spec Endf_Proofs Endf2_Proofs.
Local Open Scope list_scope.
Local Open Scope nat_scope.

(** ** C35: numbers *)
(** Any written number, with or without exponent letter, is read as its value. *)
Theorem C35_value : forall t x, denotes t x -> float_endf t = Some x.
Proof. exact float_endf_denotes. Qed.
Print Assumptions C35_value.

Definition field (m : N) (neg eneg : bool) (e : N) : text :=
  sign_text (if neg then Some true else None) ++ firstn 1 (decN m) ++ "."%char :: skipn 1 (decN m) ++
  sign_text (Some eneg) ++ decN e.
Example C35_hypotheses_met :
  denotes (str " -1.234810-10") (value true 1234810 6 true 10) /\
  denotes (str "  1.23481E+2") (value false 123481 5 false 2) /\
  denotes (str "   0012.5   ") (value false 125 1 false 0) /\
  denotes (str "   -7   ") (value true 7 0 false 0) /\
  value true 1234810 6 true 10 = qc (-123481) 1000000000000000 /\ value false 123481 5 false 2 = qc 123481 1000.
Proof.
  split; [|split; [|split; [|split; [|split]]]].
  - apply (den_eless 1 0 (Some true) (str "1") (str "234810") 1234810 true (str "10") 10); try (exists 0; reflexivity). discriminate.
  - apply (den_letter 2 0 None (str "1") (str "23481") 123481 true (str "2") (Some false) 2); exists 0; reflexivity.
  - apply (den_plain 3 3 None (str "0012") (str "5") 125). exists 2; reflexivity.
  - apply (den_integer 3 3 (Some true) (str "7") 7). exists 0; reflexivity.
  - apply Qc_is_canon. reflexivity.
  - apply Qc_is_canon. reflexivity.
Qed.

(** Not every legal ENDF field is read: a blank field (zero in Fortran), a
    mantissa without digits after the point and a blank inside the exponent all
    raise. *)
Theorem C35_fortran_fields_refuted :
  (forall n, float_endf (repeat sp n) = None) /\ float_endf (str "      1.+5 ") = None /\
  float_endf (str " 1.00000+ 5") = None /\ float_endf (str " 1.000D+05 ") = None.
Proof.
  split; [|split; [|split]]; try reflexivity.
  intros n. unfold float_endf, sub_exponent. rewrite sub_id_nodot.
  - assert (T : ltrim (repeat sp n) = []).
    { rewrite <- (app_nil_r (repeat sp n)). now rewrite ltrim_spaces. }
    unfold py_float, trim. now rewrite T.
  - intros H. apply repeat_spec in H. discriminate H.
Qed.
Print Assumptions C35_fortran_fields_refuted.

(** ** C36: records *)
(** Every record returns the declared values in order and leaves the file at
    the line that follows, for every count. *)
Theorem C36_cont : forall l a b i j k n rest, control_line l a b i j k n ->
  get_cont_record false (l :: rest) = Some ({| c1 := Some a; c2 := Some b; l1 := i; l2 := j; n1 := k; n2 := n |}, rest).
Proof. intros l a b i j k n rest. exact (get_cont_ok l a b i j k n rest). Qed.
Print Assumptions C36_cont.

Theorem C36_list : forall l a b i j n vs ls rest,
  control_line l a b i j (Z.of_nat (length vs)) n -> rows number_field 6 vs ls ->
  get_list_record (l :: ls ++ rest) =
  Some ({| c1 := Some a; c2 := Some b; l1 := i; l2 := j; n1 := Z.of_nat (length vs); n2 := n |}, vs, rest).
Proof. exact get_list_ok. Qed.
Print Assumptions C36_list.

Theorem C36_tab1 : forall l a b i j regions points lr lp rest,
  control_line l a b i j (Z.of_nat (length regions)) (Z.of_nat (length points)) ->
  rows (pair_field integer_field) 3 regions lr -> rows (pair_field number_field) 3 points lp ->
  get_tab1_record (l :: lr ++ lp ++ rest) = Some (a, b, i, j, regions, points, rest).
Proof. exact get_tab1_ok. Qed.
Print Assumptions C36_tab1.

Theorem C36_tab2 : forall l a b i j n regions lr rest,
  control_line l a b i j (Z.of_nat (length regions)) n -> rows (pair_field integer_field) 3 regions lr ->
  get_tab2_record (l :: lr ++ rest) =
  Some ({| c1 := Some a; c2 := Some b; l1 := i; l2 := j; n1 := Z.of_nat (length regions); n2 := n |}, regions, rest).
Proof. exact get_tab2_ok. Qed.
Print Assumptions C36_tab2.

(** *** Examples *)
Definition num (m : N) (e : N) : text := sp :: field m false false e.
Definition int (z : Z) : text := pad 11 (decZ z).
Lemma num_ok m e : length (decN m) = 7 -> length (decN e) = 1 -> number_field (num m e) (value false m 6 false e).
Proof.
  intros Hm He. unfold num, field. cbn [sign_text app]. split.
  - cbn [length]. rewrite app_length, firstn_length. cbn [length]. rewrite app_length, skipn_length. cbn [length]. lia.
  - pose proof (den_eless 1 0 None (firstn 1 (decN m)) (skipn 1 (decN m)) m false (decN e) e) as H.
    rewrite skipn_length in H. rewrite Hm in H. cbn [Nat.sub minus repeat sign_text app] in H. rewrite app_nil_r in H.
    apply H; [exists 0; apply firstn_skipn| |exists 0; reflexivity].
    intros E. apply (f_equal (@length ascii)) in E. rewrite skipn_length, Hm in E. discriminate E.
Qed.
Lemma int_ok z : length (decZ z) <= 11 -> integer_field (int z) z.
Proof.
  intros H. split; [now apply pad_length|]. exists (11 - length (decZ z)), 0. unfold int, pad. cbn [repeat]. now rewrite app_nil_r.
Qed.
Definition ctl (a b : N * N) (i j k n : Z) (tail : text) : text :=
  num (fst a) (snd a) ++ num (fst b) (snd b) ++ int i ++ int j ++ int k ++ int n ++ tail.
Lemma ctl_ok ma ea mb eb i j k n tail :
  length (decN ma) = 7 -> length (decN ea) = 1 -> length (decN mb) = 7 -> length (decN eb) = 1 ->
  length (decZ i) <= 11 -> length (decZ j) <= 11 -> length (decZ k) <= 11 -> length (decZ n) <= 11 ->
  control_line (ctl (ma, ea) (mb, eb) i j k n tail) (value false ma 6 false ea) (value false mb 6 false eb) i j k n.
Proof.
  intros. exists (num ma ea), (num mb eb), (int i), (int j), (int k), (int n), tail.
  repeat split; try (now apply num_ok); try (now apply int_ok).
Qed.
Ltac lens := vm_compute; solve [reflexivity | lia | repeat constructor].

Definition ex_vs : list (N * N) :=
  [(1000000, 0); (2500000, 1); (3000000, 2); (4000000, 3); (5000000, 4); (6000000, 5); (7250000, 6)]%N.
Definition ex_val (p : N * N) : Qc := value false (fst p) 6 false (snd p).
Definition ex_num (p : N * N) : text := num (fst p) (snd p).
Lemma ex_fields ps : (forall p, In p ps -> length (decN (fst p)) = 7 /\ length (decN (snd p)) = 1) ->
  Forall2 number_field (map ex_num ps) (map ex_val ps).
Proof.
  induction ps as [|p ps IH]; intros H; [constructor|]. cbn [map]. constructor.
  - apply num_ok; apply (H p); now left.
  - apply IH. intros q Hq. apply H. now right.
Qed.
Definition ex_tail := str "9228 3  1    1".
(** Seven values on two lines, three pairs on one. *)
Example C36_hypotheses_met :
  control_line (ctl (9223500%N, 4%N) (2330248%N, 2%N) 0 1 7 0 ex_tail) (value false 9223500 6 false 4) (value false 2330248 6 false 2) 0 1
    (Z.of_nat (length (map ex_val ex_vs))) 0 /\
  rows number_field 6 (map ex_val ex_vs)
    [concat (map ex_num (firstn 6 ex_vs)) ++ ex_tail; concat (map ex_num (skipn 6 ex_vs)) ++ ex_tail] /\
  rows (pair_field integer_field) 3 [(2, 1); (7, 5)]%Z [concat [int 2 ++ int 1; int 7 ++ int 5] ++ ex_tail] /\
  rows (pair_field number_field) 3 [(ex_val (1000000, 0), ex_val (2500000, 1))]%N
    [concat [ex_num (1000000, 0)%N ++ ex_num (2500000, 1)%N] ++ []].
Proof.
  split; [|split; [|split]].
  - apply ctl_ok; lens.
  - change (map ex_val ex_vs) with (map ex_val (firstn 6 ex_vs) ++ map ex_val (skipn 6 ex_vs)).
    apply rows_more; [reflexivity|discriminate| |apply rows_last; [discriminate|cbn; lia|]].
    + apply ex_fields. cbn [ex_vs firstn]. intros p [<-|[<-|[<-|[<-|[<-|[<-|[]]]]]]]; split; reflexivity.
    + apply ex_fields. cbn [ex_vs skipn]. intros p [<-|[]]; split; reflexivity.
  - apply rows_last; [discriminate|cbn; lia|]. repeat constructor.
    + exists (int 2), (int 1). repeat split; apply int_ok; lens.
    + exists (int 7), (int 5). repeat split; apply int_ok; lens.
  - apply rows_last; [discriminate|cbn; lia|]. repeat constructor.
    exists (ex_num (1000000, 0)%N), (ex_num (2500000, 1)%N). repeat split; apply num_ok; lens.
Qed.

(** ** C38: sections *)
(** A material is cut into exactly its sections, in order, each with exactly its
    lines; the directory and the descriptive data are those of section (1, 451);
    the file is left after the material. *)
Theorem C38_sections : forall m ls rest, mater_text m ls ->
  exists ev, evaluate (ls ++ rest) = Done (ev, rest) /\ read_as m ev.
Proof. exact evaluate_ok. Qed.
Print Assumptions C38_sections.

(** Where a section is given more than once, the last counts. *)
Theorem C38_repeated : forall mat ss ls rest s d, material_text mat ss ls ->
  last_named s ss -> s_mf s = 1%Z -> s_mt s = 451%Z -> descriptive_lines d (s_lines s) ->
  exists ev, evaluate (ls ++ rest) = Done (ev, rest) /\ material ev = mat /\ described d (info ev) /\
    (forall s', last_named s' ss -> get (s_mf s', s_mt s') (section ev) = Some (concat (s_lines s'))) /\
    (forall k, (forall s', In s' ss -> (s_mf s', s_mt s') <> k) -> get k (section ev) = None).
Proof. exact evaluate_repeated. Qed.
Print Assumptions C38_repeated.

(** A file that stops inside a section is never read to an end. *)
Theorem C38_truncated_hangs : forall mat ss body mf mt part, (0 < mat)%Z -> sect_texts mat ss body ->
  NoDup (map (fun s => (s_mf s, s_mt s)) ss) -> mf <> 0%Z -> (forall s, In s ss -> s_mf s <> 0%Z) ->
  part <> [] -> (0 < mt)%Z -> (forall l, In l part -> tagged mat mf mt l) ->
  evaluate (body ++ part) = Hangs.
Proof. exact truncated_hangs. Qed.
Print Assumptions C38_truncated_hangs.

(** ** C53: materials *)
(** Where the constructor leaves the file open (ASAPy/data/endf.py), every
    material of the tape is returned, in order. *)
Theorem C53_all_materials : forall ms f, tape ms f ->
  exists evs, get_evaluations false f = Done evs /\ Forall2 read_as ms evs.
Proof. intros ms f H. apply (evaluations_ok ms f H). lia. Qed.
Print Assumptions C53_all_materials.

(** Where it closes the file (ASAPy/endf.py), no tape with a material can be
    read. *)
Theorem C53_closing_refuted : forall m ms f, tape (m :: ms) f -> get_evaluations true f = Raised.
Proof. intros m ms f H. exact (evaluations_closing m ms f H _). Qed.
Print Assumptions C53_closing_refuted.

(** *** Example: a tape with two materials *)
Definition tag (body : text) (mat mf mt : Z) : text :=
  body ++ pad 4 (decZ mat) ++ pad 2 (decZ mf) ++ pad 3 (decZ mt) ++ str "    1" ++ [nl].
Definition blanks (t : text) : text := t ++ repeat sp (66 - length t).
Lemma notin_dec (x : ascii) l : existsb (eqc x) l = false -> ~ In x l.
Proof.
  intros H Hi. apply not_true_iff_false in H. apply H. apply existsb_exists. exists x. split; [assumption|]. unfold eqc. apply Ascii.eqb_refl.
Qed.
Lemma tag_ok body mat mf mt : length body = 66 -> existsb (eqc nl) body = false ->
  length (decZ mat) <= 4 -> length (decZ mf) <= 2 -> length (decZ mt) <= 3 -> tagged mat mf mt (tag body mat mf mt).
Proof.
  intros H1 H2 H3 H4 H5. exists body, (str "    1"). repeat split; try assumption; apply notin_dec; [assumption|reflexivity].
Qed.
Definition ex_body (a b : N * N) (i j k n : Z) := ctl a b i j k n [].
Definition ex_dir_body (mf mt nc : Z) : text := repeat sp 22 ++ int mf ++ int mt ++ int nc ++ int 0.
Definition ex_451 (mat : Z) (m : N) : list text :=
  [tag (ex_body (m, 3%N) (9991700, 0)%N 0 0 0 5) mat 1 451;
   tag (ex_body (1000000, 0)%N (1000000, 0)%N 0 0 0 6) mat 1 451;
   tag (ex_body (1000000, 0)%N (2000000, 7)%N 8 0 10 7) mat 1 451;
   tag (ex_body (2936000, 2)%N (1000000, 0)%N 0 0 2 2) mat 1 451;
   tag (blanks (str " 1-H -  1 LANL")) mat 1 451;
   tag (blanks (str " DIST-AUG")) mat 1 451;
   tag (ex_dir_body 1 451 8) mat 1 451;
   tag (ex_dir_body 3 1 2) mat 1 451].
Definition ex_3_1 (mat : Z) : list text :=
  [tag (ex_body (1001000, 3)%N (9991700, 0)%N 0 0 0 0) mat 3 1; tag (blanks (str " 1.000000-5 2.000000+1")) mat 3 1].
Definition ex_sects (mat : Z) (m : N) : list sect :=
  [{| s_mf := 1; s_mt := 451; s_lines := ex_451 mat m |}; {| s_mf := 3; s_mt := 1; s_lines := ex_3_1 mat |}].
Definition ex_b := blanks [].
Definition ex_material (mat : Z) (m : N) : list text :=
  [tag ex_b 1 0 0] ++
  ((ex_451 mat m ++ tag ex_b mat 1 0 :: [tag ex_b mat 0 0]) ++ (ex_3_1 mat ++ tag ex_b mat 3 0 :: [tag ex_b mat 0 0]) ++ []) ++
  [tag ex_b 0 0 0].
Definition ex_desc (mat : Z) (m : N) (za : Z) : descriptive :=
  {| d_za := za; d_awr := value false 9991700 6 false 0; d_lrp := 0; d_lfi := 0; d_nlib := 0; d_nmod := 5;
     d_elis := value false 1000000 6 false 0; d_sta := value false 1000000 6 false 0; d_lis := 0; d_liso := 0;
     d_awi := value false 1000000 6 false 0; d_emax := value false 2000000 6 false 7; d_lrel := 8; d_nsub := 10; d_nver := 7;
     d_temp := value false 2936000 6 false 2; d_ldrv := 0;
     d_texts := map (firstn 66) [tag (blanks (str " 1-H -  1 LANL")) mat 1 451; tag (blanks (str " DIST-AUG")) mat 1 451];
     d_dir := [(1, 451, 8, 0); (3, 1, 2, 0)]%Z |}.
Definition ex_mater (mat : Z) (m : N) (za : Z) : mater :=
  {| m_mat := mat; m_sects := ex_sects mat m; m_desc := ex_desc mat m za |}.

Lemma ex_ctl_tag a b i j k n mat mf mt : exists tail, tag (ex_body a b i j k n) mat mf mt = ctl a b i j k n tail.
Proof.
  unfold tag, ex_body, ctl. rewrite <- !app_assoc. cbn [app]. eexists. reflexivity.
Qed.
Lemma ex_dir mf mt nc mat a b : length (decZ mf) <= 11 -> length (decZ mt) <= 11 -> length (decZ nc) <= 11 ->
  directory_line (tag (ex_dir_body mf mt nc) mat a b) (mf, mt, nc, 0%Z).
Proof.
  intros. unfold directory_line, tag, ex_dir_body. rewrite <- !app_assoc.
  do 6 eexists. split; [reflexivity|]. repeat split; try (apply int_ok; assumption). left. apply int_ok. lens.
Qed.
Lemma ex_mater_ok mat m za : (mat = 125 /\ m = 1001000%N /\ za = 1001)%Z \/ (mat = 128 /\ m = 1002000%N /\ za = 1002)%Z ->
  mater_text (ex_mater mat m za) (ex_material mat m).
Proof.
  intros H.
  assert (L : length (decZ mat) <= 4) by (destruct H as [(-> & _)|(-> & _)]; lens).
  assert (Hm : length (decN m) = 7) by (destruct H as [(_ & -> & _)|(_ & -> & _)]; lens).
  assert (Hz : value false m 6 false 3 = qz za).
  { destruct H as [(_ & -> & ->)|(_ & -> & ->)]; apply Qc_is_canon; reflexivity. }
  assert (HP : (0 < mat)%Z) by (destruct H as [(-> & _)|(-> & _)]; lia).
  assert (B : length ex_b = 66 /\ existsb (eqc nl) ex_b = false) by (split; reflexivity). destruct B as [B1 B2].
  split.
  - exists [tag ex_b 1 0 0], ((ex_451 mat m ++ tag ex_b mat 1 0 :: [tag ex_b mat 0 0]) ++ (ex_3_1 mat ++ tag ex_b mat 3 0 :: [tag ex_b mat 0 0]) ++ []), (tag ex_b 0 0 0), 0%Z.
    split; [reflexivity|]. split; [assumption|]. split; [discriminate|].
    split; [|split; [|split]].
    + cbn [ex_mater m_sects ex_sects]. intros s [<-|[<-|[]]]; discriminate.
    + intros l [<-|[]]. exists 1%Z, 0%Z. split; [lia|]. apply tag_ok; try assumption; lens.
    + cbn [ex_mater m_sects m_mat]. apply st_cons; [|apply st_cons; [|apply st_nil]].
      * exists (tag ex_b mat 1 0), [tag ex_b mat 0 0]. split; [reflexivity|]. cbn [s_mt s_mf s_lines].
        split; [lia|]. split; [discriminate|]. split; [|split].
        -- assert (Hh : length (ex_body (m, 3%N) (9991700, 0)%N 0 0 0 5) = 66 /\ existsb (eqc nl) (ex_body (m, 3%N) (9991700, 0)%N 0 0 0 5) = false).
           { destruct H as [(_ & -> & _)|(_ & -> & _)]; split; reflexivity. } destruct Hh as [Hh1 Hh2].
           intros l Hl. unfold ex_451 in Hl.
           destruct Hl as [<-|[<-|[<-|[<-|[<-|[<-|[<-|[<-|[]]]]]]]]]; (apply tag_ok; [first [assumption | reflexivity]|first [assumption | reflexivity]|assumption|lens|lens]).
        -- apply tag_ok; try assumption; lens.
        -- intros l [<-|[]]. apply tag_ok; try assumption; lens.
      * exists (tag ex_b mat 3 0), [tag ex_b mat 0 0]. split; [reflexivity|]. cbn [s_mt s_mf s_lines].
        split; [lia|]. split; [discriminate|]. split; [|split].
        -- intros l [<-|[<-|[]]]; (apply tag_ok; [reflexivity|reflexivity|assumption|lens|lens]).
        -- apply tag_ok; try assumption; lens.
        -- intros l [<-|[]]. apply tag_ok; try assumption; lens.
    + apply tag_ok; try assumption; lens.
  - split.
    { unfold no_repeat. cbn [ex_mater m_sects ex_sects map s_mf s_mt].
      constructor; [intros [E|[]]; discriminate E|]. constructor; [intros []|constructor]. }
    cbn [ex_mater m_sects ex_sects m_desc]. eexists. split; [left; reflexivity|]. split; [reflexivity|]. split; [reflexivity|].
    cbn [s_lines]. unfold ex_451, descriptive_lines.
    destruct (ex_ctl_tag (m, 3%N) (9991700, 0)%N 0 0 0 5 mat 1 451) as (t1 & E1).
    destruct (ex_ctl_tag (1000000, 0)%N (1000000, 0)%N 0 0 0 6 mat 1 451) as (t2 & E2).
    destruct (ex_ctl_tag (1000000, 0)%N (2000000, 7)%N 8 0 10 7 mat 1 451) as (t3 & E3).
    destruct (ex_ctl_tag (2936000, 2)%N (1000000, 0)%N 0 0 2 2 mat 1 451) as (t4 & E4).
    rewrite E1, E2, E3, E4.
    exists (ctl (m, 3%N) (9991700, 0)%N 0 0 0 5 t1), (ctl (1000000, 0)%N (1000000, 0)%N 0 0 0 6 t2),
      (ctl (1000000, 0)%N (2000000, 7)%N 8 0 10 7 t3), (ctl (2936000, 2)%N (1000000, 0)%N 0 0 2 2 t4),
      [tag (blanks (str " 1-H -  1 LANL")) mat 1 451; tag (blanks (str " DIST-AUG")) mat 1 451],
      [tag (ex_dir_body 1 451 8) mat 1 451; tag (ex_dir_body 3 1 2) mat 1 451], [].
    do 5 eexists. split; [reflexivity|].
    split; [apply ctl_ok; first [assumption | lens]|]. split; [exact Hz|].
    split; [apply ctl_ok; lens|]. split; [apply ctl_ok; lens|]. split; [apply ctl_ok; lens|].
    split; [reflexivity|]. cbn [ex_desc d_dir]. repeat constructor; apply ex_dir; lens.
Qed.
Example C38_hypotheses_met : mater_text (ex_mater 125 1001000 1001) (ex_material 125 1001000).
Proof. apply ex_mater_ok. now left. Qed.
Example C53_hypotheses_met :
  tape [ex_mater 125 1001000 1001; ex_mater 128 1002000 1002]
    (ex_material 125 1001000 ++ ex_material 128 1002000 ++ [tag ex_b (-1) 0 0]).
Proof.
  apply tape_more; [apply ex_mater_ok; now left|]. apply tape_more; [apply ex_mater_ok; now right|].
  apply tape_end. apply tag_ok; lens.
Qed.
(** Section (3, 1) given twice, the second time with its first line only. *)
Example C38_repeated_hypotheses_met : exists body s, sect_texts 125 (ex_sects 125 1001000 ++ [{| s_mf := 3; s_mt := 1; s_lines := firstn 1 (ex_3_1 125) |}]) body /\
  In s (ex_sects 125 1001000) /\ s_mf s = 1%Z /\ last_named s (ex_sects 125 1001000 ++ [{| s_mf := 3; s_mt := 1; s_lines := firstn 1 (ex_3_1 125) |}]) /\
  descriptive_lines (ex_desc 125 1001000 1001) (s_lines s) /\ ~ no_repeat (ex_sects 125 1001000 ++ [{| s_mf := 3; s_mt := 1; s_lines := firstn 1 (ex_3_1 125) |}]).
Proof.
  pose proof (ex_mater_ok 125 1001000 1001 (or_introl (conj eq_refl (conj eq_refl eq_refl)))) as [(pre & body & mend & mt_ & _ & _ & _ & _ & _ & Hb & _) (_ & s0 & Hin & E1 & E2 & Hd)].
  cbn [ex_mater m_sects m_mat ex_sects m_desc] in *. inversion Hb as [|s ss l ls Hs Hr]; subst. inversion Hr as [|s2 ss2 l2 ls2 Hs2 Hr2]; subst.
  destruct Hin as [<-|[<-|[]]]; [|discriminate E1].
  destruct Hs2 as (send & fends & El & A1 & A2 & A3 & A4 & A5).
  exists (l ++ (ex_3_1 125 ++ send :: fends) ++ (firstn 1 (ex_3_1 125) ++ send :: fends) ++ []). eexists. split; [|split; [left; reflexivity|]].
  - cbn [app]. apply st_cons; [exact Hs|]. apply st_cons; [exists send, fends; auto 10|]. apply st_cons; [|apply st_nil]. exists send, fends. cbn [s_lines s_mf s_mt] in *. split; [reflexivity|]. split; [lia|]. split; [discriminate|].
    split; [|auto]. intros x Hx. apply A3. destruct Hx as [<-|[]]. now left.
  - split; [reflexivity|]. split; [|split; [exact Hd|]].
    + exists [], (tl (ex_sects 125 1001000) ++ [{| s_mf := 3; s_mt := 1; s_lines := firstn 1 (ex_3_1 125) |}]). split; [reflexivity|]. intros s' [<-|[<-|[]]] E; discriminate E.
    + unfold no_repeat. cbn [app map s_mf s_mt]. intros N. inversion N as [|? ? _ N2]; subst. inversion N2 as [|? ? N3 _]; subst. apply N3. now left.
Qed.
(** A file cut after the first line of section (3, 1). *)
Example C38_truncated_hypotheses_met : exists body, sect_texts 125 [nth 0 (ex_sects 125 1001000) {| s_mf := 0; s_mt := 0; s_lines := [] |}] body /\
  (forall l, In l (firstn 1 (ex_3_1 125)) -> tagged 125 3 1 l).
Proof.
  pose proof (ex_mater_ok 125 1001000 1001 (or_introl (conj eq_refl (conj eq_refl eq_refl)))) as [(pre & body & mend & mt_ & _ & _ & _ & _ & _ & Hb & _) _].
  cbn [ex_mater m_sects m_mat ex_sects] in Hb. inversion Hb as [|s ss l ls Hs Hr]; subst. inversion Hr as [|s2 ss2 l2 ls2 Hs2 Hr2]; subst.
  exists (l ++ []). split.
  - apply st_cons; [exact Hs|apply st_nil].
  - intros x Hx. destruct Hs2 as (send & fends & _ & _ & _ & Ht & _). apply Ht. destruct Hx as [<-|[]]. now left.
Qed.
