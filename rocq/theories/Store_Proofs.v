From Coq Require Import Reals Qreals ZArith List Bool Arith Sorted Lia Lra.
From Verif Require Import Num XNum Text Dec PyNum Boxer_Model Boxer_Proofs Store_Model Store_Spec Mat CovCorr_Model CovCorr_Proofs.
From Coq Require Import Lra.
Import ListNotations.
Local Open Scope nat_scope.

(** ** Keys and stores *)
Lemma get_put_same k f s : get k (put k f s) = Some f.
Proof. cbn. now rewrite (proj2 (eqt_eq k k) eq_refl). Qed.
Lemma eqt_neq a b : a <> b -> eqt a b = false.
Proof. intros H. destruct (eqt a b) eqn:E; [|reflexivity]. apply eqt_eq in E. contradiction. Qed.
Lemma get_put_other k k' f s : k' <> k -> get k' (put k f s) = get k' s.
Proof.
  intros H. cbn. rewrite (eqt_neq _ _ H). induction s as [|[q g] s IH]; [reflexivity|]. cbn [filter fst].
  destruct (eqt k q) eqn:E; cbn [negb get].
  - apply eqt_eq in E as <-. now rewrite (eqt_neq _ _ H).
  - now rewrite IH.
Qed.
Lemma split_word c t r : ~ In c t -> split c (t ++ c :: r) = t :: split c r.
Proof.
  induction t as [|a t IH]; intros H; cbn [app split].
  - unfold eqc. now rewrite Ascii.eqb_refl.
  - destruct (eqc a c) eqn:E; [apply eqc_eq in E; subst; exfalso; apply H; now left|]. rewrite IH by (intros N; apply H; now right). reflexivity.
Qed.
Lemma split_end c t : ~ In c t -> split c t = [t].
Proof.
  induction t as [|a t IH]; intros H; [reflexivity|]. cbn [split].
  destruct (eqc a c) eqn:E; [apply eqc_eq in E; subst; exfalso; apply H; now left|]. rewrite IH by (intros N; apply H; now right). reflexivity.
Qed.
Lemma key_inj a b d e k a' b' d' e' k' : no_slash a -> no_slash b -> no_slash d -> no_slash e -> no_slash k ->
  no_slash a' -> no_slash b' -> no_slash d' -> no_slash e' -> no_slash k' ->
  key a b d e k = key a' b' d' e' k' -> a = a' /\ b = b' /\ d = d' /\ e = e' /\ k = k'.
Proof.
  intros H1 H2 H3 H4 H5 H1' H2' H3' H4' H5' H. apply (f_equal (split slash)) in H. unfold key in H.
  rewrite !(split_word slash) in H by assumption. rewrite !(split_end slash) in H by assumption. now injection H as -> -> -> -> ->.
Qed.
Lemma dec_no_slash z : no_slash (decZ z).
Proof. apply decZ_notin; [reflexivity|discriminate]. Qed.
Lemma corr_no_slash : no_slash (str "corr").
Proof. unfold no_slash. cbn. intuition discriminate. Qed.
Lemma dev_no_slash : no_slash (str "std_dev").
Proof. unfold no_slash. cbn. intuition discriminate. Qed.

(** ** Listing *)
Lemma insert_in z l x : In x (insert z l) <-> x = z \/ In x l.
Proof.
  induction l as [|y l IH]; cbn [insert]; [cbn; intuition|]. destruct (z <? y)%Z; [cbn; intuition|].
  destruct (Z.eqb_spec z y) as [->|N]; cbn [In]; [intuition|]. rewrite IH. tauto.
Qed.
Lemma insert_sorted z l : StronglySorted Z.lt l -> StronglySorted Z.lt (insert z l).
Proof.
  induction 1 as [|y l S IH F]; cbn [insert]; [repeat constructor|]. destruct (Z.ltb_spec z y) as [L|L].
  - constructor; [constructor; assumption|]. constructor; [assumption|]. apply (Forall_impl _ (P := Z.lt y)); [lia|exact F].
  - destruct (Z.eqb_spec z y) as [->|N]; [constructor; assumption|]. constructor; [assumption|].
    apply Forall_forall. intros x Hx. apply insert_in in Hx as [->|Hx]; [lia|]. rewrite Forall_forall in F. now apply F.
Qed.
Lemma split_key zaid mt d e k : no_slash zaid -> exists rest, split slash (slash :: key zaid (decZ mt) d e k) = [] :: zaid :: decZ mt :: rest.
Proof.
  intros H. unfold key. change (slash :: ?x) with ([] ++ slash :: x). rewrite (split_word slash []) by (intros []).
  rewrite split_word by exact H. rewrite split_word by apply dec_no_slash. eexists. reflexivity.
Qed.
Lemma py_int_decZ z : py_int (decZ z) = Some z.
Proof. pose proof (py_int_dec 0 z 0) as H. cbn [repeat app] in H. now rewrite app_nil_r in H. Qed.
Lemma mts_listed s : keyed s -> exists l, stored_mts s = Some l /\ StronglySorted Z.lt l /\
  forall m, In m l <-> exists zaid kind f, no_slash zaid /\ In (key zaid (decZ m) zaid (decZ m) kind, f) s.
Proof.
  induction s as [|[k f] s IH]; intros H.
  - exists []. split; [reflexivity|]. split; [constructor|]. intros m. split; [intros []|intros (? & ? & ? & _ & [])].
  - destruct IH as (l & E & S & Hl). { intros k' f' H'. apply (H k' f'). now right. }
    destruct (H k f (or_introl eq_refl)) as (zaid & mt & kind & Hz & ->).
    cbn [stored_mts]. destruct (split_key zaid mt zaid (decZ mt) kind Hz) as (rest & ->). rewrite py_int_decZ, E.
    exists (insert mt l). split; [reflexivity|]. split; [now apply insert_sorted|]. intros m. rewrite insert_in, Hl. split.
    + intros [->|(z & q & g & A & B)]; [exists zaid, kind, f; split; [assumption|now left]|exists z, q, g; split; [assumption|now right]].
    + intros (z & q & g & A & [B|B]).
      * left. injection B as B _. pose proof (split_key zaid mt zaid (decZ mt) kind Hz) as (r1 & E1). pose proof (split_key z m z (decZ m) q A) as (r2 & E2).
        rewrite <- B, E1 in E2. injection E2 as _ E2 _. now apply decZ_inj in E2.
      * right. exists z, q, g. now split.
Qed.
Lemma put_keyed k f s : keyed s -> (exists zaid mt kind, no_slash zaid /\ k = key zaid (decZ mt) zaid (decZ mt) kind) -> keyed (put k f s).
Proof.
  intros H Hk k' f' [E|E]; [injection E as <- <-; exact Hk|]. apply filter_In in E as [E _]. now apply (H k' f').
Qed.

(** ** Correlations *)
Lemma egt_Fn x y : egt (Fn x) (Fn y) = true <-> (y < x)%R.
Proof. cbn. unfold rltb. destruct (Rlt_dec y x); split; try easy. Qed.
Lemma egt_Fn_false x y : egt (Fn x) (Fn y) = false <-> (x <= y)%R.
Proof. cbn. unfold rltb. destruct (Rlt_dec y x) as [L|L]; split; intros H; [discriminate|exfalso; lra|lra|reflexivity]. Qed.
Definition final (e : ext) : ext := fillna (clip e).
Lemma clip_small e : big e = false -> clip e = e.
Proof. unfold big, clip. intros H. apply orb_false_iff in H as [A B]. now rewrite A, B. Qed.
Lemma clip_Fn x : clip (Fn x) = Fn (Rmax (-1) (Rmin 1 x)).
Proof.
  unfold clip. destruct (egt (Fn x) (Fn 1)) eqn:A.
  - apply egt_Fn in A. destruct (egt (Fn (-1)) (Fn 1)) eqn:B; [apply egt_Fn in B; lra|]. f_equal. rewrite Rmin_left by lra. rewrite Rmax_right; lra.
  - apply egt_Fn_false in A. rewrite Rmin_right by lra. destruct (egt (Fn (-1)) (Fn x)) eqn:B.
    + apply egt_Fn in B. f_equal. rewrite Rmax_left; lra.
    + apply egt_Fn_false in B. f_equal. rewrite Rmax_right; lra.
Qed.
Lemma final_value e : exists r, final e = Fn r /\ (-1 <= r <= 1)%R.
Proof.
  unfold final. destruct e as [x| | |].
  - rewrite clip_Fn. cbn. eexists. split; [reflexivity|]. unfold Rmax, Rmin. destruct (Rle_dec 1 x); destruct (Rle_dec _ _); lra.
  - unfold clip. cbn [egt]. change (rltb 1 (-1)) with (egt (Fn (-1)) (Fn 1)).
    destruct (egt (Fn (-1)) (Fn 1)) eqn:B; [apply egt_Fn in B; lra|]. exists 1%R. split; [reflexivity|lra].
  - unfold clip. cbn [egt]. exists (-1)%R. split; [reflexivity|lra].
  - exists 0%R. split; [reflexivity|lra].
Qed.
Lemma final_one : final (Fn 1) = Fn 1.
Proof. unfold final. rewrite clip_Fn. cbn. f_equal. rewrite Rmin_left by lra. apply Rmax_right. lra. Qed.
Lemma ediv_cut x d : exists r, final (ediv x d) = Fn r /\ (-1 <= r <= 1)%R /\ cut_quotient x d r.
Proof.
  destruct (final_value (ediv x d)) as (r & E & B). exists r. split; [exact E|]. split; [exact B|]. unfold ediv in E. destruct (Req_EM_T d 0) as [D|D].
  - split; [intros N; contradiction|]. intros _. destruct (Req_EM_T x 0) as [X|X].
    + cbn in E. injection E as <-. repeat split; intros; lra.
    + destruct (Rlt_dec 0 x) as [P|P]; unfold final, clip in E; cbn [egt] in E.
      * change (rltb 1 (-1)) with (egt (Fn (-1)) (Fn 1)) in E. destruct (egt (Fn (-1)) (Fn 1)) eqn:Q; [apply egt_Fn in Q; lra|]. cbn in E. injection E as <-. repeat split; intros; lra.
      * cbn in E. injection E as <-. repeat split; intros; lra.
  - unfold final in E. rewrite clip_Fn in E. cbn in E. injection E as <-. split; [reflexivity|intros N; contradiction].
Qed.
Lemma cell_matrix {A} (d : A) n f i j : i < n -> j < n -> cell d (matrix_of n f) i j = f i j.
Proof.
  intros Hi Hj. unfold cell, matrix_of. rewrite (nth_indep _ [] ((fun i => map (f i) (seq 0 n)) 0)) by (rewrite map_length, seq_length; lia).
  rewrite (map_nth (fun i => map (f i) (seq 0 n))), seq_nth by lia. cbn [Nat.add].
  rewrite (nth_indep _ d (f i 0)) by (rewrite map_length, seq_length; lia). now rewrite (map_nth (f i)), seq_nth.
Qed.
Lemma map_matrix {A B} (h : A -> B) n f : map (map h) (matrix_of n f) = matrix_of n (fun i j => h (f i j)).
Proof. unfold matrix_of. rewrite map_map. apply map_ext. intros i. now rewrite map_map. Qed.
Lemma matrix_ext {A} n (f g : nat -> nat -> A) : (forall i j, i < n -> j < n -> f i j = g i j) -> matrix_of n f = matrix_of n g.
Proof.
  intros H. unfold matrix_of. apply map_ext_in. intros i Hi. apply in_seq in Hi. apply map_ext_in. intros j Hj. apply in_seq in Hj. apply H; lia.
Qed.
Lemma matrix_length {A} n (f : nat -> nat -> A) : length (matrix_of n f) = n /\ forall r, In r (matrix_of n f) -> length r = n.
Proof.
  unfold matrix_of. rewrite map_length, seq_length. split; [reflexivity|]. intros r Hr. apply in_map_iff in Hr as (i & <- & _). now rewrite map_length, seq_length.
Qed.
(** What is stored as correlation. *)
Lemma stored_corr n f : map (map fillna) (if existsb (existsb big) (matrix_of n f) then map (map clip) (matrix_of n f) else matrix_of n f) =
  matrix_of n (fun i j => final (f i j)).
Proof.
  destruct (existsb (existsb big) (matrix_of n f)) eqn:E; rewrite !map_matrix; [reflexivity|].
  apply matrix_ext. intros i j Hi Hj. unfold final. rewrite clip_small; [reflexivity|].
  apply not_true_is_false. intros N. apply not_true_iff_false in E. apply E. apply existsb_exists. exists (map (f i) (seq 0 n)).
  split; [unfold matrix_of; apply in_map_iff; exists i; split; [reflexivity|apply in_seq; lia]|].
  apply existsb_exists. exists (f i j). split; [apply in_map_iff; exists j; split; [reflexivity|apply in_seq; lia]|exact N].
Qed.
Lemma correlation_sym c i j : correlation c i j = correlation c j i.
Proof.
  unfold correlation. rewrite (Nat.eqb_sym j i). destruct (Nat.eqb_spec i j) as [->|N]; [reflexivity|].
  destruct (i <? j) eqn:A, (j <? i) eqn:B; try reflexivity; [apply Nat.ltb_lt in A, B|apply Nat.ltb_ge in A, B]; lia.
Qed.
Lemma final_clean n cov : clean_correlation n (matrix_of n (fun i j => final (correlation cov i j))).
Proof.
  destruct (matrix_length n (fun i j => final (correlation cov i j))) as [A B]. split; [exact A|]. split; [exact B|].
  intros i j Hi Hj. rewrite !cell_matrix by assumption. rewrite (correlation_sym cov j i). destruct (final_value (correlation cov i j)) as (r & E & Br).
  exists r. split; [exact E|]. split; [exact E|]. split; [exact Br|]. intros ->. unfold correlation in E. rewrite Nat.eqb_refl, final_one in E. now injection E.
Qed.
Definition cov_of (c : list (list Qc)) : mat := fun i j => q2r (cell 0%Qc c i j).
Lemma final_cut n cov i j : i < j -> j < n -> exists r, cell ENaN (matrix_of n (fun i j => final (correlation cov i j))) i j = Fn r /\
  cut_quotient (cov_of cov i j) (sqrt (Rabs (cov_of cov i i * cov_of cov j j))) r.
Proof.
  intros Hij Hj. rewrite cell_matrix by lia. unfold correlation. destruct (i =? j) eqn:E; [apply Nat.eqb_eq in E; lia|].
  destruct (i <? j) eqn:L; [|apply Nat.ltb_ge in L; lia]. fold (cov_of cov i j) (cov_of cov i i) (cov_of cov j j).
  destruct (ediv_cut (cov_of cov i j) (sqrt (Rabs (cov_of cov i i * cov_of cov j j)))) as (r & A & _ & B). exists r. now split.
Qed.
(** Without zero variances and without cutting it is the correlation of CovCorr_Model. *)
Lemma final_is_correlation n cov i j : i < n -> j < n -> i <> j -> (cov_of cov i i <> 0)%R -> (cov_of cov j j <> 0)%R ->
  (-1 <= cov_to_correlation n (cov_of cov) i j <= 1)%R ->
  cell ENaN (matrix_of n (fun i j => final (correlation cov i j))) i j = Fn (cov_to_correlation n (cov_of cov) i j).
Proof.
  intros Hi Hj Nij Ni Nj. rewrite cell_matrix by assumption. rewrite cov_to_correlation_entry by assumption. unfold correlation.
  destruct (i =? j) eqn:E; [apply Nat.eqb_eq in E; lia|].
  assert (D : forall a b, (a <> 0)%R -> (b <> 0)%R -> (sqrt (Rabs (a * b)) <> 0)%R).
  { intros a b Ha Hb Hs. apply sqrt_eq_0 in Hs; [|apply Rabs_pos]. revert Hs. apply Rabs_no_R0. now apply Rmult_integral_contrapositive. }
  assert (F : forall x d, (d <> 0)%R -> (-1 <= x / d <= 1)%R -> final (ediv x d) = Fn (x / d)).
  { intros x d Hd Hb. destruct (ediv_cut x d) as (r & A & _ & [B _]). rewrite A. f_equal. rewrite (B Hd), Rmin_right, Rmax_right; lra. }
  destruct (i <? j) eqn:L; fold (cov_of cov i j) (cov_of cov j i) (cov_of cov i i) (cov_of cov j j); intros Hb; apply F; auto.
Qed.

(** ** Group tables *)
Definition fixed (g : group) : group := set_rel (set_sdev (set_xsec g)).
Lemma fixed_bounds g : e_low (fixed g) = e_low g /\ e_high (fixed g) = e_high g.
Proof. unfold fixed, set_rel, set_sdev, set_xsec. destruct (xisnan (rel g)) eqn:E; cbn [rel]; rewrite ?E; cbn [rel]; rewrite ?E; now split. Qed.
Lemma fixed_nan g : rel g = NaN -> xsec (fixed g) = Fin 0 /\ sdev (fixed g) = Fin tiny /\ rel (fixed g) = Fin tiny.
Proof. intros E. unfold fixed, set_rel, set_sdev, set_xsec. rewrite E. cbn. now rewrite ?E. Qed.
Lemma fixed_other g : xisnan (rel g) = false -> fixed g = g.
Proof. intros E. unfold fixed, set_rel, set_sdev, set_xsec. now rewrite E, E, E. Qed.
Lemma fixed_data h l a d : (a = 0%Qc -> d = 0%Qc) ->
  group_data a d (fixed {| e_low := l; e_high := h; xsec := Fin a; rel := xdiv (Fin d) (Fin a); sdev := Fin d |}).
Proof.
  intros H. unfold group_data. split; intros Ha.
  - assert (E : xdiv (Fin d) (Fin a) = Fin (d / a)%Qc) by (cbn; now rewrite (proj2 (qeqb_neq a 0%Qc) Ha)).
    rewrite E, fixed_other by reflexivity. now repeat split.
  - apply fixed_nan. cbn [rel xdiv]. rewrite (H Ha), Ha. now rewrite (proj2 (qeqb_eq 0%Qc 0%Qc) eq_refl).
Qed.
Lemma table_nth hi : forall lo x s n, length hi = n -> length lo = n -> length x = n -> length s = n ->
  length (table hi lo x s) = n /\ forall i d, i < n -> nth i (table hi lo x s) d =
    {| e_low := nth i lo 0%Qc; e_high := nth i hi 0%Qc; xsec := Fin (nth i x 0%Qc); rel := xdiv (Fin (nth i s 0%Qc)) (Fin (nth i x 0%Qc)); sdev := Fin (nth i s 0%Qc) |}.
Proof.
  induction hi as [|h hi IH]; intros lo x s n H1 H2 H3 H4; cbn [length] in H1.
  - subst n. split; [reflexivity|lia].
  - destruct lo as [|l lo], x as [|a x], s as [|d s]; cbn [length] in *; try lia. destruct n as [|n]; [lia|].
    destruct (IH lo x s n) as [A B]; try lia. cbn [table length]. split; [lia|]. intros [|i] d0 Hi; [reflexivity|]. cbn [nth]. apply B. lia.
Qed.
Lemma falling_decreasing l : falling l = true <-> decreasing l.
Proof.
  unfold decreasing. induction l as [|x l IH]; [split; [cbn; lia|reflexivity]|]. destruct l as [|y l]; [split; [cbn; lia|reflexivity]|].
  cbn [falling]. rewrite andb_true_iff, qltb_lt. fold (falling (y :: l)). rewrite IH. split.
  - intros [A B] [|i] Hi; [exact A|]. apply (B i). cbn [length] in *. lia.
  - intros H. split; [apply (H 0); cbn; lia|]. intros i Hi. apply (H (S i)). cbn [length] in *. lia.
Qed.
Lemma removelast_nth {A} (l : list A) d i : S i < length l -> nth i (removelast l) d = nth i l d.
Proof.
  revert i. induction l as [|x l IH]; intros i H; cbn [length] in H; [lia|]. destruct l as [|y l]; [cbn [length] in H; lia|].
  change (removelast (x :: y :: l)) with (x :: removelast (y :: l)). destruct i as [|i]; [reflexivity|]. cbn [nth]. apply IH. lia.
Qed.
Lemma removelast_len {A} (l : list A) : length (removelast l) = length l - 1.
Proof. induction l as [|x l IH]; [reflexivity|]. destruct l as [|y l]; [reflexivity|]. change (removelast (x :: y :: l)) with (x :: removelast (y :: l)). cbn [length] in *. lia. Qed.
Lemma tl_nth {A} (l : list A) d i : nth i (tl l) d = nth (S i) l d.
Proof. destruct l; [now destruct i|reflexivity]. Qed.
Lemma tl_len {A} (l : list A) : length (tl l) = length l - 1.
Proof. destruct l; cbn; lia. Qed.

(** ** Numbers read *)
Lemma products_nth a b i : length a = length b -> nth i (products a b) 0%Qc = (nth i a 0 * nth i b 0)%Qc.
Proof.
  revert b i. induction a as [|x a IH]; intros [|y b] i H; try discriminate; [destruct i; cbn; ring|]. destruct i as [|i]; [reflexivity|]. cbn [nth products]. apply IH. cbn in H. lia.
Qed.
Lemma products_len a b : length a = length b -> length (products a b) = length a.
Proof. revert b. induction a as [|x a IH]; intros [|y b] H; try discriminate; [reflexivity|]. cbn in *. f_equal. apply IH. lia. Qed.
Lemma times_zero r x s i : times r x = Some s -> length s = length x -> nth i x 0%Qc = 0%Qc -> nth i s 0%Qc = 0%Qc.
Proof.
  unfold times. intros H L E. destruct (length r =? length x) eqn:Q.
  - injection H as <-. apply Nat.eqb_eq in Q. rewrite products_nth by exact Q. rewrite E. ring.
  - assert (M : forall (a : Qc) l, nth i l 0%Qc = 0%Qc -> nth i (map (fun y => (a * y)%Qc) l) 0%Qc = 0%Qc).
    { intros a l Hl. transitivity (nth i (map (fun y => (a * y)%Qc) l) (a * 0)%Qc); [f_equal; ring|]. rewrite (map_nth (fun y => (a * y)%Qc)), Hl. ring. }
    apply Nat.eqb_neq in Q. destruct r as [|a [|b r]].
    + destruct x as [|y [|z x]]; try discriminate. injection H as <-. cbn in L. lia.
    + injection H as <-. now apply M.
    + destruct x as [|y [|z x]]; try discriminate. injection H as <-. cbn in L. lia.
Qed.
Lemma read_zero ls b x s c i : read_matrix ls = Data b x s c -> length s = length x -> nth i x 0%Qc = 0%Qc -> nth i s 0%Qc = 0%Qc.
Proof.
  unfold read_matrix. destruct (existsb _ ls); [discriminate|]. destruct (header_lines 0 ls) as [|n0 [|n1 [|n2 [|n3 hs]]]]; try discriminate.
  destruct (times _ _) as [sd|] eqn:T; [|discriminate]. destruct (_ =? _); [|discriminate]. intros H. injection H as <- <- <- <-. now apply (times_zero _ _ _ _ T).
Qed.
Lemma rows_len k n l : length (rows k n l) = k.
Proof. revert l. induction k as [|k IH]; intros l; [reflexivity|]. cbn. now rewrite IH. Qed.
Lemma read_len ls b x s c : read_matrix ls = Data b x s c -> length c = length x.
Proof.
  unfold read_matrix. destruct (existsb _ ls); [discriminate|]. destruct (header_lines 0 ls) as [|n0 [|n1 [|n2 [|n3 hs]]]]; try discriminate.
  destruct (times _ _) as [sd|] eqn:T; [|discriminate]. destruct (_ =? _); [|discriminate]. intros H. injection H as <- <- <- <-. apply rows_len.
Qed.

(** ** Processing *)
Lemma process_done s zaid mt known ls s' : process s zaid mt known ls = (s', Done) ->
  exists b x sd cov g, read_matrix ls = Data b x sd cov /\ length x = length cov /\ length sd = length cov /\
    s' = put (dev_key zaid (decZ mt)) (Dev g) (put (corr_key zaid (decZ mt)) (Corr (matrix_of (length cov) (fun i j => final (correlation cov i j)))) s) /\
    length g = length cov /\ length b - 1 = length cov /\
    (forall i d, i < length g -> e_high (nth i g d) = nth i b 0%Qc /\ e_low (nth i g d) = nth (S i) b 0%Qc /\ group_data (nth i x 0%Qc) (nth i sd 0%Qc) (nth i g d)) /\
    decreasing (map e_low g) /\ decreasing (map e_high g).
Proof.
  unfold process. destruct (read_matrix ls) as [| | | |b x sd cov] eqn:R; [destruct known; discriminate|discriminate..|].
  rewrite stored_corr. rewrite removelast_len, tl_len.
  destruct (length b - 1 =? length cov) eqn:Lb; [|discriminate]. cbn [negb orb]. destruct (length x =? length cov) eqn:Lx; [|discriminate]. cbn [negb orb].
  destruct (length sd =? length cov) eqn:Ls; [|discriminate]. cbn [negb]. apply Nat.eqb_eq in Lb, Lx, Ls. cbv zeta.
  rewrite !map_map. change (fun x0 => set_rel (set_sdev (set_xsec x0))) with fixed. rewrite <- !(map_map fixed).
  set (g := map fixed _). destruct (falling (map e_low g)) eqn:F1; [|discriminate]. destruct (falling (map e_high g)) eqn:F2; [|discriminate].
  cbn [andb]. intros H. injection H as <-. apply falling_decreasing in F1, F2.
  destruct (table_nth (removelast b) (tl b) x sd (length cov)) as [T1 T2]; rewrite ?removelast_len, ?tl_len; try assumption.
  exists b, x, sd, cov, g. split; [reflexivity|]. split; [exact Lx|]. split; [exact Ls|]. split; [reflexivity|].
  assert (Lg : length g = length cov) by (unfold g; now rewrite map_length).
  split; [exact Lg|]. split; [exact Lb|]. split; [|now split]. intros i d Hi.
  set (d0 := {| e_low := 0; e_high := 0; xsec := NaN; rel := NaN; sdev := NaN |}).
  assert (E : nth i g d = fixed (nth i (table (removelast b) (tl b) x sd) d0)).
  { unfold g. rewrite (nth_indep _ d (fixed d0)) by (fold g; lia). apply map_nth. }
  rewrite E, T2 by lia. rewrite !(proj1 (fixed_bounds _)), !(proj2 (fixed_bounds _)). cbn [e_low e_high]. rewrite tl_nth, removelast_nth by lia.
  split; [reflexivity|]. split; [reflexivity|]. apply fixed_data. apply (read_zero ls b x sd cov i R). lia.
Qed.
Lemma keys_differ zaid mt : no_slash zaid -> corr_key zaid (decZ mt) <> dev_key zaid (decZ mt).
Proof.
  intros H E. unfold corr_key, dev_key in E. apply key_inj in E as (_ & _ & _ & _ & E); auto using dec_no_slash, corr_no_slash, dev_no_slash. discriminate.
Qed.
Lemma clean_store s zaid mt known ls s' : no_slash zaid -> process s zaid mt known ls = (s', Done) ->
  exists b x sd cov c g, read_matrix ls = Data b x sd cov /\
    get (corr_key zaid (decZ mt)) s' = Some (Corr c) /\ get (dev_key zaid (decZ mt)) s' = Some (Dev g) /\
    clean_correlation (length x) c /\
    (forall i j, i < j -> j < length x -> exists r, cell ENaN c i j = Fn r /\ cut_quotient (cov_of cov i j) (sqrt (Rabs (cov_of cov i i * cov_of cov j j))) r) /\
    (0 < length x -> contiguous b g) /\ length g = length x /\
    (forall i d, i < length x -> group_data (nth i x 0%Qc) (nth i sd 0%Qc) (nth i g d)).
Proof.
  intros Hz H. destruct (process_done _ _ _ _ _ _ H) as (b & x & sd & cov & g & R & Lx & Ls & -> & Lg & Lb & Hg & _).
  exists b, x, sd, cov, (matrix_of (length cov) (fun i j => final (correlation cov i j))), g. split; [exact R|].
  split; [rewrite get_put_other by (now apply keys_differ); apply get_put_same|]. split; [apply get_put_same|]. rewrite Lx.
  split; [apply final_clean|]. split; [intros i j Hij Hj; now apply final_cut|]. split; [|split; [exact Lg|]].
  - intros P. split; [lia|]. intros i d Hi. destruct (Hg i d Hi) as (A & B & _). now split.
  - intros i d Hi. apply Hg. lia.
Qed.
Lemma succeeds s zaid mt known ls b x sd cov : read_matrix ls = Data b x sd cov -> 2 <= length x ->
  (snd (process s zaid mt known ls) = Done <-> length b = S (length x) /\ length sd = length x /\ decreasing b).
Proof.
  intros R L. pose proof (read_len _ _ _ _ _ R) as Lc. unfold process. rewrite R. rewrite removelast_len, tl_len.
  destruct (length b - 1 =? length cov) eqn:Lb; cbn [negb orb snd].
  2:{ apply Nat.eqb_neq in Lb. split; [discriminate|]. lia. }
  destruct (length x =? length cov) eqn:Lx; cbn [negb orb snd]; [|apply Nat.eqb_neq in Lx; lia].
  destruct (length sd =? length cov) eqn:Ls; cbn [negb snd].
  2:{ apply Nat.eqb_neq in Ls. split; [discriminate|]. intros (_ & N & _). lia. }
  apply Nat.eqb_eq in Lb, Lx, Ls. cbv zeta. rewrite !map_map. change (fun x0 => set_rel (set_sdev (set_xsec x0))) with fixed.
  assert (Lbl : length b = S (length cov)) by lia.
  destruct (table_nth (removelast b) (tl b) x sd (length cov)) as [T1 T2]; rewrite ?removelast_len, ?tl_len; try assumption.
  set (d0 := {| e_low := 0; e_high := 0; xsec := NaN; rel := NaN; sdev := NaN |}).
  assert (E1 : map (fun y => e_low (set_rel (set_sdev (set_xsec y)))) (table (removelast b) (tl b) x sd) = tl b).
  { apply (nth_ext _ _ (e_low (fixed d0)) 0%Qc); rewrite map_length, ?tl_len; [lia|]. intros i Hi.
    change (fun y => e_low (set_rel (set_sdev (set_xsec y)))) with (fun y => e_low (fixed y)). rewrite (map_nth (fun y => e_low (fixed y))). rewrite T2 by lia. now rewrite (proj1 (fixed_bounds _)). }
  assert (E2 : map (fun y => e_high (set_rel (set_sdev (set_xsec y)))) (table (removelast b) (tl b) x sd) = removelast b).
  { apply (nth_ext _ _ (e_high (fixed d0)) 0%Qc); rewrite map_length, ?removelast_len; [lia|]. intros i Hi.
    change (fun y => e_high (set_rel (set_sdev (set_xsec y)))) with (fun y => e_high (fixed y)). rewrite (map_nth (fun y => e_high (fixed y))). rewrite T2 by lia. now rewrite (proj2 (fixed_bounds _)). }
  rewrite E1, E2. destruct (falling (tl b) && falling (removelast b)) eqn:F; cbn [snd].
  - split; [|reflexivity]. intros _. apply andb_true_iff in F as [F1 F2]. apply falling_decreasing in F1, F2. split; [lia|]. split; [lia|].
    intros i Hi. destruct i as [|i].
    + specialize (F2 0). rewrite removelast_len in F2. rewrite !removelast_nth in F2 by lia. apply F2. lia.
    + specialize (F1 i). rewrite tl_len, !tl_nth in F1. apply F1. lia.
  - split; [discriminate|]. intros (_ & _ & D). exfalso. apply not_true_iff_false in F. apply F. apply andb_true_iff. split; apply falling_decreasing.
    + intros i Hi. rewrite tl_len in Hi. rewrite !tl_nth. apply D. lia.
    + intros i Hi. rewrite removelast_len in Hi. rewrite !removelast_nth by lia. apply D. lia.
Qed.
Lemma load_back s zaid mt known ls s' b x sd cov : no_slash zaid -> process s zaid mt known ls = (s', Done) -> read_matrix ls = Data b x sd cov -> 2 <= length x ->
  exists g c, get (dev_key zaid (decZ mt)) s' = Some (Dev g) /\ get (corr_key zaid (decZ mt)) s' = Some (Corr c) /\ load s' zaid (decZ mt) = Some (g, c).
Proof.
  intros Hz H R L. destruct (clean_store _ _ _ _ _ _ Hz H) as (b' & x' & sd' & cov' & c & g & R' & Gc & Gd & Cl & _ & Co & Lg & _).
  rewrite R in R'. injection R' as <- <- <- <-. exists g, c. split; [exact Gd|]. split; [exact Gc|]. unfold load. rewrite Gd, Gc.
  destruct Cl as (Lc & Lr & Cl).
  assert (D : map (fun i => cell ENaN c i i) (seq 0 (length c)) = repeat (Fn 1) (length c)).
  { apply (nth_ext _ _ ENaN ENaN); [rewrite map_length, repeat_length, seq_length; reflexivity|]. intros i Hi. rewrite map_length, seq_length in Hi.
    rewrite (nth_indep _ ENaN (cell ENaN c 0 0)) by (rewrite map_length, seq_length; exact Hi). rewrite (map_nth (fun i => cell ENaN c i i)), seq_nth by exact Hi. cbn [Nat.add].
    destruct (Cl i i) as (r & A & _ & _ & B); try lia. rewrite A, (B eq_refl). symmetry. clear - Hi. revert i Hi. induction (length c) as [|k IH]; intros i Hi; [lia|]. destruct i as [|i]; [reflexivity|]. cbn. apply IH. lia. }
  rewrite D. destruct (length c) as [|k] eqn:Ek; [lia|]. cbn [repeat]. destruct g as [|r0 g]; [cbn in Lg; lia|].
  assert (P : forall k, pymax (Fn 1) (repeat (Fn 1) k) = Fn 1).
  { intros q. unfold pymax. induction q as [|q IH]; [reflexivity|]. cbn [repeat fold_left]. destruct (egt (Fn 1) (Fn 1)); exact IH. }
  rewrite P. destruct (Co ltac:(lia)) as [Lb Hb]. destruct (Hb 0 r0 ltac:(cbn; lia)) as [H1 H2]. cbn [nth] in H1, H2.
  assert (Dn : decreasing b) by (pose proof (proj1 (succeeds s zaid mt known ls b x sd cov R L)) as Q; rewrite H in Q; now apply Q).
  pose proof (Dn 0 ltac:(cbn in *; lia)) as D0. rewrite H1, H2. rewrite (proj2 (qltb_nlt _ _)) by (apply Qclt_le_weak; exact D0). f_equal. f_equal.
  rewrite <- (map_id c) at 2. apply map_ext_in. intros row Hr. rewrite <- (map_id row) at 2. apply map_ext_in. intros e He.
  apply (In_nth _ _ []) in Hr as (i & Hi & <-). apply (In_nth _ _ ENaN) in He as (j & Hj & <-). rewrite (Lr (nth i c [])) in Hj by (apply nth_In; exact Hi).
  destruct (Cl i j) as (r & A & _); [lia..|]. unfold cell in A. rewrite A. cbn. unfold ediv. destruct (Req_EM_T 1 0); [lra|]. f_equal. field.
Qed.
(** What is touched. *)
Lemma process_shape s zaid mt known ls : exists c g,
  let sc := put (corr_key zaid (decZ mt)) (Corr c) s in
  process s zaid mt known ls = (s, Skipped) \/ process s zaid mt known ls = (s, Raised) \/ process s zaid mt known ls = (sc, Raised) \/
  process s zaid mt known ls = (put (dev_key zaid (decZ mt)) (Dev g) sc, Done).
Proof.
  unfold process. destruct (read_matrix ls) as [| | | |b x sd cov].
  1: { exists [], []. destruct known; tauto. }
  1-3: exists [], []; tauto.
  cbv zeta. match goal with |- context [put _ (Corr ?c) s] => exists c end.
  match goal with |- context [Dev ?g] => exists g end.
  destruct (_ || _); [tauto|]. destruct (_ && _); tauto.
Qed.
Lemma frame_keys s zaid mt known ls k : k <> corr_key zaid (decZ mt) -> k <> dev_key zaid (decZ mt) -> get k (fst (process s zaid mt known ls)) = get k s.
Proof.
  intros H1 H2. destruct (process_shape s zaid mt known ls) as (c & g & H). cbv zeta in H.
  destruct H as [->|[->|[->| ->]]]; cbn [fst]; rewrite ?get_put_other by assumption; reflexivity.
Qed.
Lemma failed_keys s zaid mt known ls k : snd (process s zaid mt known ls) <> Done -> k <> corr_key zaid (decZ mt) -> get k (fst (process s zaid mt known ls)) = get k s.
Proof.
  intros Hd H1. destruct (process_shape s zaid mt known ls) as (c & g & H). cbv zeta in H.
  destruct H as [E|[E|[E|E]]]; rewrite E in *; cbn [fst snd] in *; rewrite ?get_put_other by assumption; try reflexivity. now contradiction Hd.
Qed.
Lemma skipped_same s zaid mt known ls : snd (process s zaid mt known ls) = Skipped -> fst (process s zaid mt known ls) = s.
Proof.
  intros Hd. destruct (process_shape s zaid mt known ls) as (c & g & H). cbv zeta in H.
  destruct H as [E|[E|[E|E]]]; rewrite E in *; cbn [fst snd] in *; try discriminate; reflexivity.
Qed.
Lemma process_keyed s zaid mt known ls : no_slash zaid -> keyed s -> keyed (fst (process s zaid mt known ls)).
Proof.
  intros Hz Hk. destruct (process_shape s zaid mt known ls) as (c & g & H). cbv zeta in H.
  destruct H as [->|[->|[->| ->]]]; cbn [fst]; try exact Hk; repeat apply put_keyed; try exact Hk; unfold corr_key, dev_key; eauto.
Qed.

(** ** Endings, and loading any store *)
Lemma skipped_iff s zaid mt known ls : snd (process s zaid mt known ls) = Skipped <-> read_matrix ls = BoxrError /\ known = true.
Proof.
  unfold process. destruct (read_matrix ls); cbn [snd]; try (split; [discriminate | intros [H _]; discriminate]).
  - destruct known; cbn; split; try discriminate; [auto|auto|]. intros [_ H]; discriminate.
  - destruct (_ || _); cbn [snd]; [split; [discriminate | intros [H _]; discriminate]|]. destruct (_ && _); cbn [snd]; (split; [discriminate | intros [H _]; discriminate]).
Qed.
Lemma pymax_greatest l : forall x, (exists m, pymax (Fn x) (map Fn l) = Fn m /\ In m (x :: l) /\ forall y, In y (x :: l) -> (y <= m)%R).
Proof.
  induction l as [|y l IH]; intros x; [exists x; repeat split; [now left|]; intros y [->|[]]; lra|].
  unfold pymax. cbn [map fold_left egt]. unfold rltb. destruct (Rlt_dec x y) as [L|L].
  - destruct (IH y) as (m & E & I & M). exists m. split; [exact E|]. split; [destruct I as [->|I]; [right; now left | right; now right]|].
    intros z [<-|[<-|Z]]; [assert (y <= m)%R by (apply M; now left); lra | apply M; now left | apply M; now right].
  - destruct (IH x) as (m & E & I & M). exists m. split; [exact E|]. split; [destruct I as [->|I]; [now left | right; now right]|].
    intros z [<-|[<-|Z]]; [apply M; now left | assert (x <= m)%R by (apply M; now left); lra | apply M; now right].
Qed.
Lemma finite_list (d : list ext) : (forall e, In e d -> exists x, e = Fn x) -> exists l, d = map Fn l.
Proof.
  induction d as [|e d IH]; intros H; [now exists []|]. destruct (H e (or_introl eq_refl)) as (x & ->). destruct IH as (l & ->); [intros e I; apply H; now right|]. now exists (x :: l).
Qed.
Lemma load_any s zaid mt g c m : get (dev_key zaid mt) s = Some (Dev g) -> get (corr_key zaid mt) s = Some (Corr c) ->
  g <> [] -> greatest_on_diagonal c m -> m <> 0%R ->
  exists g' c', load s zaid mt = Some (g', c') /\ put_right g g' /\
    forall i j x, cell ENaN c i j = Fn x -> cell ENaN c' i j = Fn (x / m)%R.
Proof.
  intros Gd Gc NE ((i0 & L0 & E0) & M) M0. unfold load. rewrite Gd, Gc.
  set (ds := map (fun i => cell ENaN c i i) (seq 0 (length c))).
  assert (F : forall e, In e ds -> exists x, e = Fn x /\ (x <= m)%R).
  { intros e I. apply in_map_iff in I. destruct I as (i & <- & I). apply in_seq in I. apply M. lia. }
  assert (I0 : In (Fn m) ds) by (rewrite <- E0; apply in_map_iff; exists i0; split; [reflexivity | apply in_seq; lia]).
  destruct (finite_list ds) as (l & El). { intros e I. destruct (F e I) as (x & -> & _). eauto. }
  rewrite El in *. destruct l as [|x l]; [destruct I0|]. cbn [map]. destruct g as [|r g]; [congruence|].
  destruct (pymax_greatest l x) as (k & Ek & Ik & Mk). rewrite Ek.
  assert (k = m) as ->.
  { destruct (F (Fn k)) as (k' & [= <-] & K1). { change (Fn x :: map Fn l) with (map Fn (x :: l)). now apply in_map. }
    assert (I1 : In m (x :: l)). { change (Fn x :: map Fn l) with (map Fn (x :: l)) in I0. apply in_map_iff in I0. destruct I0 as (z & [= ->] & I0). exact I0. }
    specialize (Mk m I1). lra. }
  eexists _, _. split; [reflexivity|]. split.
  - cbn [put_right]. split; intros H.
    + destruct (qltb_spec (e_high r) (e_low r)) as [L|_]; [|reflexivity]. destruct (Qcle_not_lt _ _ H L).
    + destruct (qltb_spec (e_high r) (e_low r)) as [_|L]; [|contradiction]. set (l' := r :: g). clearbody l'. clear. induction l'; cbn; constructor; [cbn; auto | assumption].
  - intros i j y H. unfold cell in *. assert (Li : i < length c). { destruct (Nat.lt_ge_cases i (length c)) as [|G]; [assumption|]. rewrite (nth_overflow c) in H by exact G. destruct j; discriminate. }
    rewrite (nth_indep _ [] (map (fun e => edivide e (Fn m)) [])) by (now rewrite map_length). rewrite (map_nth (map (fun e => edivide e (Fn m)))).
    assert (Lj : j < length (nth i c [])). { destruct (Nat.lt_ge_cases j (length (nth i c []))) as [|G]; [assumption|]. rewrite nth_overflow in H by exact G. discriminate. }
    rewrite (nth_indep _ ENaN (edivide ENaN (Fn m))) by (now rewrite map_length). rewrite (map_nth (fun e => edivide e (Fn m))), H. cbn. unfold ediv. destruct (Req_EM_T m 0); [contradiction | reflexivity].
Qed.
