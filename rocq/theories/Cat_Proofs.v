(** Catalogues of data files, proofs. *)
From Verif Require Import Num Text Cli_Model Cli_Spec Path_Model Path_Spec Path_Proofs Cat_Model Cat_Spec.
Local Open Scope nat_scope.
Local Open Scope list_scope.

(** ** Relative paths *)
Definition clean (c : text) : Prop := c <> [] /\ ~ In slash c.
Lemma plain_clean c : plain_name c -> clean c. Proof. intros (A & B & _). now split. Qed.
Lemma split_clean cs : cs <> [] -> Forall clean cs -> split (joined cs) = cs.
Proof.
  induction cs as [|c cs IH]; intros N F; [contradiction|]. inversion F as [|? ? [_ C] Fc]; subst. cbn [joined]. destruct cs as [|d cs]; [now apply split_name|]. rewrite split_app, (split_name c C), IH; [reflexivity|discriminate|exact Fc].
Qed.
Lemma filter_plain cs : Forall plain_name cs -> filter (fun c => negb (eqt c [])) cs = cs.
Proof. induction 1 as [|c cs (A & _) F IH]; [reflexivity|]. cbn [filter]. rewrite (eqt_false c [] A). cbn. now rewrite IH. Qed.
Lemma steps_place cwd p : isabs cwd = true -> steps cwd p = place cwd p /\ Forall plain_name (place cwd p).
Proof.
  intros A. destruct (abspath_shape cwd p A) as (n & Hn & E & F). split; [|exact F]. unfold steps. rewrite E. set (cs := place cwd p) in *. clearbody cs.
  assert (X : filter (fun c => negb (eqt c [])) (split (joined cs)) = cs) by (rewrite (split_joined cs F); destruct cs; [reflexivity|now apply filter_plain]).
  destruct Hn as [-> | ->]; cbn [repeat app split]; change (eqc slash slash) with true; cbn iota; cbn [filter]; change (negb (eqt [] [])) with false; cbn iota; exact X.
Qed.
Lemma clean_end c : clean c -> ends_slash c = false.
Proof.
  intros [N S]. unfold ends_slash. destruct (rev c) as [|x r] eqn:E; [apply (f_equal (@rev ascii)) in E; rewrite rev_involutive in E; contradiction|]. apply eqc_neq. intros ->. apply S. apply in_rev. rewrite E. now left.
Qed.
Lemma clean_rel c : clean c -> isabs c = false.
Proof. intros [N S]. destruct c as [|x c]; [contradiction|]. cbn. apply eqc_neq. intros ->. apply S. now left. Qed.
Lemma ends_app a c : c <> [] -> ends_slash (a ++ c) = ends_slash c.
Proof. intros N. unfold ends_slash. rewrite rev_app_distr. destruct (rev c) eqn:E; [apply (f_equal (@rev ascii)) in E; rewrite rev_involutive in E; contradiction|reflexivity]. Qed.
Lemma joined_merge w b r : joined ((w ++ slash :: b) :: r) = w ++ slash :: joined (b :: r).
Proof. destruct r as [|c r]; [reflexivity|]. cbn [joined]. now rewrite <- app_assoc. Qed.
Lemma fold_join r : forall w, ends_slash w = false -> Forall clean r -> fold_left join_path r w = joined (w :: r).
Proof.
  induction r as [|b r IH]; intros w E F; [reflexivity|]. inversion F as [|? ? C F']; subst. cbn [fold_left]. unfold join_path at 2. rewrite (clean_rel b C), E. rewrite IH; [|rewrite ends_app by discriminate; change (slash :: b) with ([slash] ++ b); rewrite ends_app by apply C; now apply clean_end|exact F'].
  rewrite joined_merge. reflexivity.
Qed.
Lemma common_prefix a : forall b, exists r s, a = common eqt a b ++ r /\ b = common eqt a b ++ s.
Proof.
  induction a as [|x a IH]; intros b; [exists [], b; split; reflexivity|]. destruct b as [|y b]; [exists (x :: a), []; split; reflexivity|]. cbn [common]. destruct (eqt x y) eqn:E; [|exists (x :: a), (y :: b); split; reflexivity].
  apply eqt_eq in E as ->. destruct (IH b) as (r & s & E1 & E2). exists r, s. cbn [app]. split; now f_equal.
Qed.
Lemma walk_dotdot k : forall s, fold_left walk (repeat dotdot k) s = firstn (length s - k) s.
Proof.
  induction k as [|k IH]; intros s; [now rewrite Nat.sub_0_r, firstn_all|]. cbn [repeat fold_left]. change (walk s dotdot) with (removelast s). rewrite IH.
  destruct s as [|x s' _] using rev_ind; [reflexivity|]. rewrite removelast_last, app_length. cbn [length]. replace (length s' + 1 - S k) with (length s' - k) by lia. rewrite firstn_app. replace (length s' - k - length s') with 0 by lia. cbn. now rewrite app_nil_r.
Qed.
Lemma leads_join here a b : isabs b = false -> leads here (join_path a b) = fold_left walk (split b) (leads here a).
Proof.
  intros B. unfold join_path. rewrite B. destruct a as [|c a].
  - cbn [app]. change (ends_slash []) with true. cbn iota. unfold leads at 1. cbn [app]. rewrite B. reflexivity.
  - assert (X : forall t, leads here ((c :: a) ++ slash :: t) = fold_left walk (split t) (leads here (c :: a))) by (intros t; unfold leads; cbn [app isabs]; change (c :: a ++ slash :: t) with ((c :: a) ++ slash :: t); now rewrite split_app, fold_left_app).
    destruct (ends_slash (c :: a)) eqn:E; [|apply X]. destruct (ends_slash_inv (c :: a)) as [q Eq]; [discriminate|exact E|]. rewrite Eq. rewrite <- app_assoc. cbn [app].
    destruct q as [|d q]; [unfold leads; cbn [app isabs]; change (eqc slash slash) with true; cbn iota; cbn [split]; change (eqc slash slash) with true; cbn iota; reflexivity|].
    unfold leads. cbn [app isabs]. change (d :: q ++ slash :: b) with ((d :: q) ++ slash :: b). change (d :: q ++ [slash]) with ((d :: q) ++ [slash]). rewrite !split_app, !fold_left_app. reflexivity.
Qed.
Lemma place_join cwd a b : isabs b = false -> place cwd (join_path a b) = fold_left walk (split b) (place cwd a).
Proof. apply leads_join. Qed.
Lemma common_self s : common eqt s s = s.
Proof. induction s as [|x s IH]; [reflexivity|]. cbn. now rewrite eqt_refl, IH. Qed.
Lemma joined_rel x t : clean x -> isabs (joined (x :: t)) = false /\ joined (x :: t) <> [].
Proof. intros C. pose proof (clean_rel x C) as R. destruct C as [N _]. destruct x as [|c x]; [contradiction|]. cbn [joined]. destruct t; cbn [app]; split; try exact R; discriminate. Qed.
(** A relative path leads from one place to the other. *)
Lemma relpath_ok cwd p start r : isabs cwd = true -> relpath cwd p start = Some r ->
  p <> [] /\ isabs r = false /\ r <> [] /\ fold_left walk (split r) (place cwd start) = place cwd p /\ (r = dot <-> place cwd p = place cwd start).
Proof.
  intros A E. unfold relpath in E. destruct p as [|c p]; [discriminate|]. set (P := c :: p) in *. split; [discriminate|].
  destruct (steps_place cwd P A) as [EP FP], (steps_place cwd start A) as [ES FS]. rewrite EP, ES in E. set (l := place cwd P) in *. set (s := place cwd start) in *. clearbody l s.
  destruct (common_prefix s l) as (r1 & r2 & E1 & E2). assert (D : l = s -> common eqt s l = s) by (intros ->; apply common_self). set (k := common eqt s l) in *. clearbody k.
  assert (K : length s - length k = length r1) by (rewrite E1, app_length; lia). rewrite K in E. assert (Sk : skipn (length k) l = r2) by (rewrite E2, skipn_app, skipn_all, Nat.sub_diag; reflexivity). rewrite Sk in E.
  assert (W : fold_left walk (repeat dotdot (length r1) ++ r2) s = l).
  { rewrite fold_left_app, walk_dotdot, E1, app_length. replace (length k + length r1 - length r1) with (length k) by lia. rewrite firstn_app, firstn_all, Nat.sub_diag. cbn [firstn]. rewrite app_nil_r, walk_all; [symmetry; exact E2|]. rewrite E2 in FP. now apply Forall_app in FP. }
  assert (C : Forall clean (repeat dotdot (length r1) ++ r2)).
  { apply Forall_app. split; [apply Forall_forall; intros x I0; apply repeat_spec in I0 as ->; split; [discriminate|intros [X|[X|[]]]; discriminate]|]. rewrite E2 in FP. apply Forall_app in FP as [_ FP]. eapply Forall_impl; [|exact FP]. intros x. apply plain_clean. }
  destruct (repeat dotdot (length r1) ++ r2) as [|a t] eqn:R.
  - assert (r = dot) as -> by congruence. split; [reflexivity|]. split; [discriminate|]. cbn in W. split; [cbn; exact W|]. split; [intros _; now symmetry|reflexivity].
  - inversion C as [|a' t' Ca Ct]. subst a' t'. assert (Er : r = joined (a :: t)) by (rewrite <- fold_join; [congruence|now apply clean_end|exact Ct]).
    destruct (joined_rel a t Ca) as [J1 J2]. rewrite Er. split; [exact J1|]. split; [exact J2|]. rewrite (split_clean (a :: t)) by (assumption || discriminate). split; [exact W|]. split.
    + intros J. exfalso. apply (f_equal split) in J. rewrite (split_clean (a :: t)) in J by (assumption || discriminate). change (split dot) with [dot] in J. rewrite J in R. destruct r1 as [|y r1]; [|discriminate R]. cbn in R. rewrite E2, R in FP. apply Forall_app in FP as [_ FP]. inversion FP as [|? ? (_ & _ & X & _) _]. now apply X.
    + intros X. exfalso. specialize (D X). assert (r1 = []) as -> by (rewrite D in E1; apply (app_inv_head s); now rewrite app_nil_r, <- E1). assert (r2 = []) as -> by (rewrite D, X in E2; apply (app_inv_head s); now rewrite app_nil_r, <- E2). discriminate.
Qed.
Lemma relpath_some cwd p start : p <> [] -> exists r, relpath cwd p start = Some r.
Proof. intros N. unfold relpath. destruct p; [contradiction|]. destruct (_ ++ _); eauto. Qed.

(** ** Folders *)
Lemma from_slash_app n r : ~ In slash n -> from_slash (n ++ slash :: r) = slash :: r.
Proof. induction n as [|c n IH]; intros N; [reflexivity|]. cbn. assert (eqc c slash = false) as -> by (apply eqc_neq; intros ->; apply N; now left). apply IH. intros X. apply N. now right. Qed.
Lemma from_slash_none n : ~ In slash n -> from_slash n = [].
Proof. induction n as [|c n IH]; intros N; [reflexivity|]. cbn. assert (eqc c slash = false) as -> by (apply eqc_neq; intros ->; apply N; now left). apply IH. intros X. apply N. now right. Qed.
Lemma dirname_name n : ~ In slash n -> dirname n = [].
Proof. intros N. unfold dirname. rewrite from_slash_none; [reflexivity|]. intros X. apply N, in_rev, X. Qed.
Lemma rev_slash n d : ~ In slash n -> from_slash (rev (d ++ slash :: n)) = slash :: rev d.
Proof. intros N. rewrite rev_app_distr. cbn [rev]. rewrite <- app_assoc. cbn [app]. apply from_slash_app. intros X. apply N, in_rev, X. Qed.
Lemma all_slash l : forallb (fun c => eqc c slash) l = true -> l = repeat slash (length l).
Proof. induction l as [|c l IH]; intros H; [reflexivity|]. cbn in H. apply andb_true_iff in H as [H1 H2]. apply eqc_eq in H1 as ->. cbn. now rewrite <- IH. Qed.
Lemma walk_empty here k : fold_left walk (split (repeat slash k)) here = here.
Proof. induction k as [|k IH]; [reflexivity|]. cbn [repeat split]. change (eqc slash slash) with true. cbn iota. cbn [fold_left]. exact IH. Qed.
Lemma no_slash_app l : exists k, l = repeat slash k ++ no_slash l.
Proof. induction l as [|c l (k & IH)]; [exists 0; reflexivity|]. cbn. destruct (eqc c slash) eqn:E; [|exists 0; reflexivity]. apply eqc_eq in E as ->. exists (S k). cbn. now rewrite <- IH. Qed.
Lemma rev_repeat (k : nat) : rev (repeat slash k) = repeat slash k.
Proof. induction k as [|k IH]; [reflexivity|]. cbn. rewrite IH. clear. induction k as [|k IH]; [reflexivity|]. cbn. now rewrite IH. Qed.
Lemma walk_trail here d k : fold_left walk (split (d ++ repeat slash k)) here = fold_left walk (split d) here.
Proof. destruct k as [|k]; [now rewrite app_nil_r|]. cbn [repeat]. rewrite split_app, fold_left_app. apply walk_empty. Qed.
Lemma dirname_place cwd d n : ~ In slash n -> leads (leads [] cwd) (dirname (d ++ slash :: n)) = fold_left walk (split d) (if isabs (d ++ slash :: n) then [] else leads [] cwd).
Proof.
  intros N. unfold dirname. rewrite (rev_slash n d N). destruct (forallb (fun c => eqc c slash) (slash :: rev d)) eqn:E.
  - apply all_slash in E. assert (Ed : d = repeat slash (length (rev d))) by (rewrite <- (rev_involutive d) at 1; cbn [length repeat] in E; injection E as E; rewrite E at 1; apply rev_repeat).
    rewrite E, rev_repeat. cbn [length repeat]. unfold leads at 1. cbn [isabs]. change (eqc slash slash) with true. cbn iota. cbn [split]. change (eqc slash slash) with true. cbn iota. cbn [fold_left]. change (walk [] []) with (@nil text). rewrite walk_empty.
    assert (isabs (d ++ slash :: n) = true) as -> by (rewrite Ed; destruct (length (rev d)); reflexivity). rewrite Ed. now rewrite walk_empty.
  - cbn [no_slash forallb] in *. rewrite eqc_refl in *. cbn [andb] in E. destruct (no_slash_app (rev d)) as (k & K). assert (Ed : d = rev (no_slash (rev d)) ++ repeat slash k) by (rewrite <- (rev_involutive d) at 1; rewrite K at 1; rewrite rev_app_distr, rev_repeat; reflexivity).
    assert (Nn : no_slash (rev d) <> []). { intros X. rewrite X, app_nil_r in K. rewrite K in E. clear - E. induction k as [|k IH]; [discriminate|]. cbn in E. auto. }
    set (q := rev (no_slash (rev d))) in *. assert (Nq : q <> []) by (unfold q; intros X; apply Nn; apply (f_equal (@rev ascii)) in X; now rewrite rev_involutive in X). clearbody q. rewrite Ed, walk_trail. unfold leads at 1. f_equal. destruct q as [|c q]; [contradiction|reflexivity].
Qed.
Lemma folder_ok cwd p n : names p n -> place cwd (dirname p) = folder cwd p /\ place cwd p = folder cwd p ++ [n].
Proof.
  intros [Pn H]. pose proof (plain_clean n Pn) as [Nn Ns]. unfold folder.
  assert (X : place cwd p = place cwd (dirname p) ++ [n]).
  { unfold place. destruct H as [->|(d & ->)].
    - rewrite (dirname_name n Ns). unfold leads at 1. rewrite (clean_rel n (conj Nn Ns)), (split_name n Ns). cbn [fold_left]. rewrite (walk_plain n _ Pn). reflexivity.
    - change "/"%char with slash. rewrite (dirname_place cwd d n Ns). unfold leads at 1. rewrite split_app, (split_name n Ns), fold_left_app. cbn [fold_left]. now rewrite (walk_plain n _ Pn). }
  rewrite X, removelast_last. split; reflexivity.
Qed.

(** ** Catalogues *)
Lemma elements_ok cwd dir : isabs cwd = true -> forall l es, elements cwd dir l = Some es ->
  Forall2 (fun e x => exists p, x = (join (e_mats e), p, e_type e) /\ relpath cwd (e_path e) dir = Some p) l es.
Proof.
  intros A. induction l as [|e l IH]; cbn [elements]; intros es E; [assert (es = []) as -> by congruence; constructor|]. destruct (relpath cwd (e_path e) dir) as [p|] eqn:R; [|discriminate]. destruct (elements cwd dir l) as [r|]; [|discriminate]. assert (es = (join (e_mats e), p, e_type e) :: r) as -> by congruence. constructor; [eauto|now apply IH].
Qed.
Lemma elements_some cwd dir l : (forall e, In e l -> e_path e <> []) -> exists es, elements cwd dir l = Some es.
Proof.
  induction l as [|e l IH]; intros H; [eexists; reflexivity|]. cbn [elements]. destruct (relpath_some cwd (e_path e) dir) as (p & ->); [apply H; now left|]. destruct IH as (es & ->); [intros e' I0; apply H; now right|eauto].
Qed.
Lemma common_dir_nonempty l : common_dir l <> [].
Proof. unfold common_dir. destruct (dirname _); discriminate. Qed.
Lemma words_joined l : words (join l) = concat (map words l).
Proof.
  induction l as [|w l IH]; [reflexivity|]. cbn [map concat]. rewrite <- IH. destruct l as [|v l]; [cbn; now rewrite app_nil_r|]. cbn [join].
  clear. generalize (join (v :: l)). intros t. induction w as [|c w IH]; [reflexivity|]. cbn [app]. rewrite !words_cons. destruct (is_space c); [exact IH|].
  destruct w as [|b w]; [cbn [app head_space words]; reflexivity|]. cbn [app head_space] in *. rewrite IH. destruct (is_space b) eqn:B; [reflexivity|]. destruct (words_head b w B) as (w1 & w2 & ->). reflexivity.
Qed.
Lemma export_inv cwd path l x : isabs cwd = true -> export_to_xml cwd path l = Some x ->
  (x_dir x = None /\ place cwd (common_dir l) = place cwd (dirname path) \/ x_dir x = Some (abspath cwd (common_dir l)) /\ place cwd (common_dir l) <> place cwd (dirname path)) /\
  Forall2 (fun e x => exists p, x = (join (e_mats e), p, e_type e) /\ relpath cwd (e_path e) (common_dir l) = Some p) l (x_libs x).
Proof.
  intros A E. unfold export_to_xml in E. destruct (relpath cwd (common_dir l) (dirname path)) as [p|] eqn:R; [|discriminate]. destruct (elements cwd (common_dir l) l) as [es|] eqn:Ee; [|discriminate]. assert (x = mkXml (if eqt p dot then None else Some (abspath cwd (common_dir l))) es) as -> by congruence. cbn [x_dir x_libs]. split; [|now apply elements_ok].
  destruct (relpath_ok _ _ _ _ A R) as (_ & _ & _ & _ & D). destruct (eqt p dot) eqn:Ep; [left; split; [reflexivity|apply D; now apply eqt_eq]|right; split; [reflexivity|]]. intros X. apply D in X. subst p. now rewrite eqt_refl in Ep.
Qed.
Lemma read_back cwd cwd' path path' l x : isabs cwd = true -> export_to_xml cwd path l = Some x ->
  (x_dir x = None -> place cwd' (dirname path') = place cwd (dirname path)) -> Forall2 (same_file cwd cwd') l (from_xml path' x).
Proof.
  intros A E H. destruct (export_inv _ _ _ _ A E) as (D & F). unfold from_xml. set (dir := match x_dir x with Some d => d | None => dirname path' end).
  assert (P : place cwd' dir = place cwd (common_dir l)). { unfold dir. destruct D as [[D1 D2]|[D1 D2]]; rewrite D1; [rewrite (H D1); now symmetry|now apply abspath_place]. }
  clear D H E. clearbody dir. set (c := common_dir l) in *. clearbody c. induction F as [|e t l es (p & -> & R) F IH]; [constructor|]. cbn [map]. constructor; [|apply IH].
  destruct (relpath_ok _ _ _ _ A R) as (_ & R1 & _ & R2 & _). split; cbn [e_path e_type e_mats]; [|split; [reflexivity|apply words_joined]]. rewrite (place_join cwd' dir p R1), P. exact R2.
Qed.
Lemma export_iff cwd path l : (exists x, export_to_xml cwd path l = Some x) <-> forall e, In e l -> e_path e <> [].
Proof.
  split.
  - intros (x & E). unfold export_to_xml in E. destruct (relpath _ _ _); [|discriminate]. destruct (elements cwd (common_dir l) l) as [es|] eqn:Ee; [|discriminate]. clear E. revert es Ee. generalize (common_dir l). intros d. induction l as [|e l IH]; intros es Ee e' I0; [destruct I0|]. cbn [elements] in Ee. destruct I0 as [<-|I0].
    + intros X. rewrite X in Ee. discriminate.
    + destruct (relpath cwd (e_path e) d); [|discriminate]. destruct (elements cwd d l) as [r|]; [|discriminate]. now apply (IH r).
  - intros H. unfold export_to_xml. destruct (relpath_some cwd (common_dir l) (dirname path) (common_dir_nonempty l)) as (p & ->). destruct (elements_some cwd (common_dir l) l H) as (es & ->). eauto.
Qed.
Lemma get_iff name l e : get_by_material name l = Some e <-> first_with name l e.
Proof.
  unfold get_by_material, first_with, holds. assert (X : forall e, existsb (eqt name) (e_mats e) = true <-> In name (e_mats e)).
  { intros e0. rewrite existsb_exists. split; [intros (m & I0 & E); apply eqt_eq in E as ->; exact I0|intros I0; exists name; split; [exact I0|apply eqt_refl]]. }
  induction l as [|a l IH]; cbn [find]; [split; [discriminate|intros ([|] & l2 & E & _); discriminate]|]. destruct (existsb (eqt name) (e_mats a)) eqn:Ea.
  - split.
    + intros E. assert (a = e) as -> by congruence. exists [], l. split; [reflexivity|]. split; [now apply X|intros e' []].
    + intros ([|b l1] & l2 & E & H & N); [cbn in E; congruence|]. exfalso. apply (N b); [now left|]. cbn in E. assert (a = b) as <- by congruence. now apply X.
  - rewrite IH. split.
    + intros (l1 & l2 & -> & H & N). exists (a :: l1), l2. split; [reflexivity|]. split; [exact H|]. intros e' [<-|I0]; [intros Y; apply X in Y; congruence|now apply N].
    + intros ([|b l1] & l2 & E & H & N); [cbn in E; assert (a = e) as -> by congruence; apply X in H; congruence|]. cbn in E. exists l1, l2. split; [congruence|]. split; [exact H|]. intros e' I0. apply N. now right.
Qed.
Lemma get_none name l : get_by_material name l = None <-> forall e, In e l -> ~ holds name e.
Proof.
  unfold get_by_material, holds. split.
  - intros E e I0 H. pose proof (find_none _ _ E e I0) as X. cbn in X. assert (existsb (eqt name) (e_mats e) = true) by (apply existsb_exists; exists name; split; [exact H|apply eqt_refl]). congruence.
  - intros H. destruct (find _ l) as [e|] eqn:E; [|reflexivity]. apply find_some in E as [I0 E]. apply existsb_exists in E as (m & Im & Em). apply eqt_eq in Em as ->. exfalso. exact (H e I0 Im).
Qed.
Lemma words_all l : (forall w, In w l -> word w) -> concat (map words l) = l.
Proof. induction l as [|w l IH]; intros H; [reflexivity|]. cbn. rewrite IH by (intros v I0; apply H; now right). rewrite words_one; [reflexivity|]. apply H. now left. Qed.

(** ** Moving *)
Lemma common_inside d p n : common eqc (inside d p) (inside d n) = inside d (common eqc p n).
Proof. unfold inside. induction d as [|c d IH]; cbn [app common]; [change (eqc "/" "/") with true; reflexivity|]. now rewrite eqc_refl, IH. Qed.
Lemma common_in p : forall n c, In c (common eqc p n) -> In c p.
Proof. induction p as [|a p IH]; intros [|b n] c H; cbn in H; try destruct H. destruct (eqc a b); [|destruct H]. destruct H as [<-|H]; [now left|right; eauto]. Qed.
Lemma prefix_inside d ns : ns <> [] -> Forall clean ns -> exists p, commonprefix (map (inside d) ns) = inside d p /\ ~ In slash p.
Proof.
  destruct ns as [|n ns]; [contradiction|]. intros _ F. inversion F as [|? ? [_ S] _]; subst. cbn [map commonprefix]. clear F. revert n S. induction ns as [|m ns IH]; intros n S; [exists n; split; [reflexivity|exact S]|]. cbn [map fold_left]. rewrite common_inside. apply IH. intros X. apply S. now apply common_in in X.
Qed.
Lemma proper_end d : proper_dir d -> ends_slash d = false.
Proof. intros [N H]. destruct (ends_slash d) eqn:E; [|reflexivity]. destruct (ends_slash_inv d N E) as [q X]. exfalso. exact (H q X). Qed.
Lemma dirname_inside d p : proper_dir d -> ~ In slash p -> dirname (inside d p) = d.
Proof.
  intros D S. pose proof (proper_end d D) as E. unfold dirname, inside. change "/"%char with slash. rewrite (rev_slash p d S). cbn [forallb no_slash]. rewrite eqc_refl. cbn [andb]. unfold ends_slash in E. destruct (rev d) as [|c r] eqn:R; [discriminate|]. cbn [forallb no_slash]. rewrite E. cbn [andb]. rewrite <- R. apply rev_involutive.
Qed.
Lemma common_dir_inside d l ns : proper_dir d -> ns <> [] -> Forall clean ns -> map e_path l = map (inside d) ns -> common_dir l = d.
Proof.
  intros D N F E. unfold common_dir. rewrite E. destruct (prefix_inside d ns N F) as (p & -> & S). rewrite (dirname_inside d p D S). destruct D as [Nd _]. destruct d; [contradiction|reflexivity].
Qed.
Lemma place_inside cwd d n : proper_dir d -> plain_name n -> place cwd (inside d n) = place cwd d ++ [n].
Proof.
  intros D P. pose proof (proper_end d D) as E. pose proof (plain_clean n P) as C. replace (inside d n) with (join_path d n) by (unfold join_path; rewrite (clean_rel n C), E; reflexivity). rewrite (place_join cwd d n (clean_rel n C)), (split_name n (proj2 C)). cbn [fold_left]. now apply walk_plain.
Qed.
Lemma relpath_child cwd p start n : isabs cwd = true -> p <> [] -> place cwd p = place cwd start ++ [n] -> relpath cwd p start = Some n.
Proof.
  intros A N E. unfold relpath. destruct p as [|c p]; [contradiction|]. destruct (steps_place cwd (c :: p) A) as [-> _], (steps_place cwd start A) as [-> _]. rewrite E. generalize (place cwd start). intros s.
  assert (X : common eqt s (s ++ [n]) = s) by (induction s as [|x s IH]; [reflexivity|]; cbn; now rewrite eqt_refl, IH). rewrite X, Nat.sub_diag, skipn_app, skipn_all, Nat.sub_diag. reflexivity.
Qed.
Lemma relpath_same cwd d : isabs cwd = true -> d <> [] -> relpath cwd d d = Some dot.
Proof. intros A N. destruct (relpath_some cwd d d N) as (r & E). rewrite E. f_equal. now apply (relpath_ok cwd d d r A E). Qed.
Lemma proper_inside d s : plain_name s -> proper_dir (inside d s).
Proof.
  intros P. pose proof (plain_clean s P) as C. split; [destruct d; discriminate|]. intros q E. pose proof (clean_end s C) as X. assert (Y : ends_slash (inside d s) = false) by (unfold inside; rewrite ends_app by discriminate; change ("/"%char :: s) with (["/"%char] ++ s); rewrite ends_app by apply C; exact X). rewrite E in Y. rewrite ends_app in Y by discriminate. discriminate.
Qed.
