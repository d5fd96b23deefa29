(** Proofs about thermal scattering data. *)
From Coq Require Import ZArith QArith Qcanon List Bool Arith String Ascii Lia Permutation Sorted.
From Verif Require Import Num Neut_Model Neut_Spec Neut_Proofs Law_Model Hdf_Model Hdf_Spec Hdf_Proofs Nuc_Model Nuc_Proofs Sab_Model Sab_Spec.
From Verif Require Law_Spec Law_Proofs Cont_Model Name_Model Dec.
Import ListNotations.
Local Open Scope string_scope.
Local Open Scope list_scope.
Local Open Scope Z_scope.

(** ** Names *)
Lemma mem_iff s l : mem s l = true <-> In s l.
Proof. unfold mem. rewrite existsb_exists. split; [intros (x & I & E); apply String.eqb_eq in E; now subst | intros I; exists s; split; [exact I | apply String.eqb_refl]]. Qed.
Lemma mem_not s l : mem s l = false <-> ~ In s l.
Proof. rewrite <- mem_iff. now destruct (mem s l). Qed.
Lemma owner_some s k : owner s = Some k -> exists l, In (k, l) thermal_names /\ In s l.
Proof. unfold owner. destruct (find _ _) as [[k' l]|] eqn:E; [|discriminate]. intros [= <-]. apply find_some in E as [I M]. apply mem_iff in M. eauto. Qed.
Lemma owner_none s : owner s = None -> forall k l, In (k, l) thermal_names -> ~ In s l.
Proof. unfold owner. intros E k l I J. destruct (find _ _) eqn:F; [discriminate|]. apply (find_none _ _ F) in I. cbn in I. apply mem_not in I. contradiction. Qed.
(** Every alias belongs to its entry, and none is a proper name in lower case. *)
Definition prefixed (s : string) : bool := String.prefix "c_" s.
Lemma entries_ok : forallb (fun e => prefixed (fst e) && forallb (fun a => negb (prefixed a) && match owner a with Some k => String.eqb k (fst e) | None => false end) (snd e)) thermal_names = true.
Proof. vm_compute. reflexivity. Qed.
Lemma entry_ok k l : In (k, l) thermal_names -> prefixed k = true /\ forall a, In a l -> prefixed a = false /\ owner a = Some k.
Proof.
  intros I. pose proof entries_ok as E. rewrite forallb_forall in E. specialize (E _ I). cbn [fst snd] in E. apply andb_true_iff in E as [P E]. split; [exact P|]. intros a J.
  rewrite forallb_forall in E. specialize (E a J). apply andb_true_iff in E as [N O]. split; [now destruct (prefixed a)|]. destruct (owner a) as [k'|]; [|discriminate]. apply String.eqb_eq in O. now subst.
Qed.
Lemma lower_prefixed s : prefixed s = true -> prefixed (lower s) = true.
Proof.
  unfold prefixed. destruct s as [|c [|d r]]; try discriminate; cbn [String.prefix].
  - now destruct (Ascii.ascii_dec "c" c).
  - destruct (Ascii.ascii_dec "c" c) as [<-|]; [|discriminate]. destruct (Ascii.ascii_dec "_" d) as [<-|]; [|discriminate]. intros _.
    change (lower (String "c" (String "_" r))) with (String "c" (String "_" (lower r))). cbn [String.prefix]. destruct (Ascii.ascii_dec "c" "c"); [|congruence]. destruct (Ascii.ascii_dec "_" "_"); [destruct (lower r); reflexivity|congruence].
Qed.
Lemma proper_iff s : mem s (map fst thermal_names) = true <-> proper s.
Proof. rewrite mem_iff, in_map_iff. unfold proper. split; [intros ([k l] & <- & I); now exists l | intros (l & I); now exists (s, l)]. Qed.
Lemma alias_name close k l s : In (k, l) thermal_names -> In (lower s) l -> get_thermal_name close s = k.
Proof.
  intros I J. unfold get_thermal_name. destruct (entry_ok k l I) as [_ A]. destruct (A _ J) as [N O]. destruct (mem s _) eqn:M.
  - apply proper_iff in M as (l' & M). destruct (entry_ok s l' M) as [P _]. apply lower_prefixed in P. congruence.
  - now rewrite O.
Qed.
Lemma guess_form close s : among close -> proper (get_thermal_name close s) \/ get_thermal_name close s = String.append "c_" s /\ close s all_names = [].
Proof.
  intros C. unfold get_thermal_name. destruct (mem s _) eqn:M; [left; now apply proper_iff|]. destruct (owner (lower s)) as [k|] eqn:O.
  - apply owner_some in O as (l & I & _). left. now exists l.
  - destruct (close s all_names) as [|m r] eqn:E; [now right|]. left. destruct (mem m _) eqn:M'; [now apply proper_iff|].
    assert (I : In m all_names) by (apply (C s); rewrite E; now left). unfold all_names in I. apply in_app_or in I as [I|I]; [apply mem_not in M'; contradiction|].
    apply in_flat_map in I as ([k l] & I & J). destruct (entry_ok k l I) as [_ A]. destruct (A m J) as [_ ->]. now exists l.
Qed.

(** ** Coherent elastic scattering *)
Lemma below_app a b e : (forall v, In v a -> (v < e)%Qc) -> (forall v, In v b -> (e <= v)%Qc) -> below (a ++ b) e = List.length a.
Proof.
  intros A B. induction a as [|v a IH]; cbn [app below List.length].
  - destruct b as [|w b]; [reflexivity|]. cbn. specialize (B w (or_introl eq_refl)). rewrite (proj2 (qltb_nlt _ _)); [reflexivity | exact B].
  - rewrite (proj2 (qltb_lt _ _) (A v (or_introl eq_refl))). f_equal. apply IH. intros w I. apply A. now right.
Qed.
Lemma sorted_app {A} (R : A -> A -> Prop) l m : StronglySorted R (l ++ m) -> forall x y, In x l -> In y m -> R x y.
Proof.
  induction l as [|a l IH]; [contradiction|]. cbn. intros S x y [->|I] J; inversion S as [|? ? S' F]; subst; [|now apply IH].
  rewrite Forall_forall in F. apply F. apply in_or_app. now right.
Qed.
Lemma split_below l e : ascending l -> exists a b, l = a ++ b /\ (forall v, In v a -> (v < e)%Qc) /\ forall v, In v b -> (e <= v)%Qc.
Proof.
  induction l as [|v l IH]; intros S; [exists [], []; repeat split; intros; contradiction|]. inversion S as [|? ? S' F]; subst. destruct (qltb_spec v e) as [L|L].
  - destruct (IH S') as (a & b & -> & A & B). exists (v :: a), b. repeat split; [|exact B]. intros w [<-|I]; [exact L | now apply A].
  - exists [], (v :: l). repeat split; [intros; contradiction|]. rewrite Forall_forall in F. apply Qcnot_lt_le in L. intros w [<-|I]; [exact L|]. apply Qclt_le_weak. eapply Qcle_lt_trans; [exact L | now apply F].
Qed.
Lemma bragg_value edges factors e a b f s g : edges = a ++ b -> (forall v, In v a -> (v < e)%Qc) -> (forall v, In v b -> (e <= v)%Qc) -> factors = f ++ s :: g -> List.length f = List.length a ->
  bragg_at edges factors e = Some (s / e)%Qc.
Proof.
  intros -> A B -> L. unfold bragg_at. rewrite below_app by assumption. rewrite <- L, nth_error_app2 by lia. now rewrite Nat.sub_diag.
Qed.
Lemma bragg_beyond edges factors e : (forall v, In v edges -> (v < e)%Qc) -> List.length factors = List.length edges -> bragg_at edges factors e = None.
Proof.
  intros A L. unfold bragg_at. rewrite <- (app_nil_r edges), below_app by (assumption || contradiction). rewrite <- L. now rewrite (proj2 (nth_error_None _ _)).
Qed.
Lemma split_at {A} (l : list A) n : (n < List.length l)%nat -> exists f s g, l = f ++ s :: g /\ List.length f = n.
Proof. intros H. destruct (nth_error l n) as [s|] eqn:E; [|apply nth_error_None in E; lia]. apply nth_error_split in E as (f & g & -> & L). now exists f, s, g. Qed.
Lemma app_same {A} (a b c d : list A) : a ++ b = c ++ d -> List.length a = List.length c -> a = c /\ b = d.
Proof. revert c. induction a as [|x a IH]; intros [|y c] E L; try discriminate; [now split|]. injection E as -> E. destruct (IH c E) as [-> ->]; [now injection L|]. now split. Qed.
Lemma documented_value edges factors e s : List.length factors = List.length edges -> ascending edges -> documented edges factors e s ->
  (s = 0%Qc /\ forall v, In v edges -> (e <= v)%Qc) \/
  exists a v b f g, edges = a ++ v :: b /\ factors = f ++ s :: g /\ List.length f = List.length a /\ (forall w, In w (a ++ [v]) -> (w < e)%Qc) /\ forall w, In w b -> (e <= w)%Qc.
Proof.
  intros L S D. destruct D as [E F e H|E1 E2 F1 F2 v s e LL V H]; [left; now split|]. right. exists E1, v, E2, F1, F2. repeat split; auto.
  intros w I. apply in_app_or in I as [I|[<-|[]]]; [|exact V]. apply Qclt_trans with v; [|exact V]. apply (sorted_app Qclt E1 (v :: E2) S); [exact I | now left].
Qed.
Lemma factors_grow f s t g : ascending (f ++ s :: t :: g) -> s <> t.
Proof. induction f as [|x f IH]; intros S; [|inversion S; auto]. cbn in S. inversion S as [|? ? _ F]; subst. inversion F as [|? ? L _]; subst. intros ->. exact (Qclt_not_eq _ _ L eq_refl). Qed.
Lemma some_inj {A} (a b : A) : Some a = Some b -> a = b. Proof. now intros [= ->]. Qed.
Lemma bragg_wrong edges factors e s : List.length factors = List.length edges -> ascending edges -> ascending (0%Qc :: factors) -> (0 < e)%Qc -> documented edges factors e s ->
  bragg_at edges factors e <> Some (s / e)%Qc.
Proof.
  intros L S SF P D H. assert (NE : e <> 0%Qc) by (intros ->; exact (Qclt_not_eq _ _ P eq_refl)).
  assert (C : forall u w, (u / e = w / e)%Qc -> u = w). { intros u w E. rewrite <- (Qcmult_1_r u), <- (Qcmult_1_r w), <- (Qcmult_inv_r e NE), (Qcmult_comm e), !Qcmult_assoc. unfold Qcdiv in E. now rewrite E. }
  destruct (documented_value _ _ _ _ L S D) as [[-> A]|(a & v & b & f & g & -> & -> & LF & A & B)].
  - destruct factors as [|f0 g].
    + unfold bragg_at in H. now destruct (below edges e).
    + rewrite (bragg_value edges (f0 :: g) e [] edges [] f0 g) in H; try reflexivity; [|intros; contradiction | exact A]. apply some_inj, C in H. subst. apply (factors_grow [] _ _ _ SF). reflexivity.
  - destruct g as [|t g].
    + assert (b = []) as ->. { rewrite !app_length in L. cbn in L. destruct b; [reflexivity|cbn in L; lia]. }
      rewrite bragg_beyond in H; [discriminate | | exact L]. exact A.
    + rewrite (bragg_value (a ++ v :: b) (f ++ s :: t :: g) e (a ++ [v]) b (f ++ [s]) t g) in H; try assumption; [|now rewrite <- app_assoc.. | rewrite !app_length, LF; reflexivity].
      apply some_inj, C in H. subst. apply (factors_grow (0%Qc :: f) s s g SF). reflexivity.
Qed.

(** ** Nuclides *)
Lemma isotope_iff el s : is_isotope el s = true <-> exists d r, s = String.append el (String d r) /\ Dec.is_digit d = true.
Proof.
  revert s. induction el as [|c el IH]; intros [|d s]; cbn [is_isotope String.append].
  - split; [discriminate | intros (d & r & E & _); discriminate].
  - split; [intros H; exists d, s; now split | intros (d' & r & [= -> ->] & H); exact H].
  - split; [discriminate | intros (d & r & E & _); discriminate].
  - rewrite andb_true_iff, Ascii.eqb_eq, IH. split; [intros (-> & d' & r & -> & H); exists d', r; now split | intros (d' & r & [= -> ->] & H); split; [reflexivity | now exists d', r]].
Qed.
Lemma isotopes_iff s : In s isotopes <-> In s (map fst natural_abundance).
Proof. unfold isotopes. split; apply Permutation_in; [|apply Permutation_sym]; apply Permutation_map, ordered_perm. Qed.
Lemma add_new_in l s x : In x (add_new l s) <-> In x l \/ x = s.
Proof. unfold add_new. destruct (mem s l) eqn:M; [apply mem_iff in M; split; [tauto | intros [H| ->]; auto]|]. rewrite in_app_iff. cbn. intuition. Qed.
Lemma add_all_in m : forall l x, In x (fold_left add_new m l) <-> In x l \/ In x m.
Proof. induction m as [|s m IH]; intros l x; cbn; [tauto|]. rewrite IH, add_new_in. intuition. Qed.
Lemma add_new_nodup l s : NoDup l -> NoDup (add_new l s).
Proof. unfold add_new. destruct (mem s l) eqn:M; [auto|]. apply mem_not in M. intros N. apply (Permutation_NoDup (Permutation_app_comm [s] l)). now constructor. Qed.
Lemma add_all_nodup m : forall l, NoDup l -> NoDup (fold_left add_new m l).
Proof. induction m as [|s m IH]; intros l N; cbn; [exact N|]. apply IH. now apply add_new_nodup. Qed.
Local Opaque isotopes natural_abundance.
Lemma add_nuclides_in l p l' : add_nuclides l p = Some l' -> forall x, In x l' <-> In x l \/ meant (fst p) x.
Proof.
  unfold add_nuclides, meant. destruct (Z.ltb_spec 0 (fst p)) as [P|P]; [|intros [= <-] x; split; [tauto | intros [H|[H _]]; [exact H | lia]]].
  destruct (Name_Model.symbol _) as [s|]; [|discriminate]. cbn zeta. destruct (mem (string_of_list_ascii s) _) eqn:M.
  - apply mem_iff in M. intros [= <-] x. rewrite in_app_iff. cbn [In]. split.
    + intros [H|[<-|[]]]; [now left|]. right. split; [exact P|]. exists s. split; [reflexivity|]. left. now split.
    + intros [H|(_ & s' & [= <-] & [[_ ->]|[N _]])]; [now left | right; now left | contradiction].
  - apply mem_not in M. intros H x. apply some_inj in H. subst l'. rewrite add_all_in, add_new_in, filter_In, isotopes_iff, isotope_iff. unfold natural. split.
    + intros [[H| ->]|[I D]]; [now left | right | right]; (split; [exact P|]); exists s; (split; [reflexivity|]); right; split; auto.
    + intros [H|(_ & s' & [= <-] & [[N _]|[_ [->|[I D]]]])]; [tauto | contradiction | tauto | tauto].
Qed.
Lemma nuclides_in ps : forall l l', loop add_nuclides ps l = Some l' -> forall x, In x l' <-> In x l \/ exists p, In p ps /\ meant (fst p) x.
Proof.
  induction ps as [|p ps IH]; intros l l' H x; cbn in H; [injection H as <-; split; [tauto | intros [H|(p & [] & _)]; exact H]|].
  destruct (add_nuclides l p) as [m|] eqn:E; [|discriminate]. rewrite (IH _ _ H x), (add_nuclides_in _ _ _ E x). cbn [In]. split.
  - intros [[A|A]|(q & I & A)]; [tauto | right; exists p; auto | right; exists q; auto].
  - intros [A|(q & [<-|I] & A)]; [tauto | tauto | right; exists q; auto].
Qed.

(** ** From an ACE table *)
Lemma stretch_reads x p l n : stands x p l -> n = len l -> stretch x p n = Some l.
Proof. intros H ->. unfold stretch. rewrite (slice_stands x p l) by (auto; reflexivity). unfold len. rewrite Z.eqb_refl. destruct (Z.leb_spec 0 (Z.of_nat (List.length l))); [reflexivity|lia]. Qed.
Lemma every_nth k (K : (0 < k)%nat) : forall l c j, nth_error (every k c l) j = nth_error l (c + j * k)%nat.
Proof.
  induction l as [|v l IH]; intros c j; cbn [every]; [now rewrite !(proj2 (nth_error_None _ _)) by (cbn; lia)|]. destruct c as [|c]; [|rewrite IH; reflexivity].
  destruct j as [|j]; [reflexivity|]. cbn [nth_error]. rewrite IH. replace (0 + S j * k)%nat with (S (k - 1 + j * k))%nat by lia. reflexivity.
Qed.
Lemma strided_reads x a k l : 0 <= a -> 0 < k -> (forall j v, nth_error l j = Some v -> nth_error x (Z.to_nat a + j * Z.to_nat k) = Some v) ->
  strided x a (len l) k = Some l.
Proof.
  intros A K H. unfold strided. destruct (Z.ltb_spec 0 k); [|lia]. destruct (Z.leb_spec 0 (len l)); [|unfold len in *; lia]. cbn [andb].
  assert (E : every (Z.to_nat k) 0 (slice x a (a + len l * k)) = l).
  { apply ext_err. intros j. rewrite every_nth by lia. unfold slice. rewrite err_firstn, err_skipn. cbn [Nat.add].
    assert (B : forall p, 0 <= p -> bound x p = Nat.min (Z.to_nat p) (List.length x)) by (intros p P; unfold bound; destruct (Z.ltb_spec p 0); lia).
    rewrite !B by (unfold len in *; nia). destruct (nth_error l j) as [v|] eqn:N.
    - pose proof (H _ _ N) as V. assert (L : (j < List.length l)%nat) by (apply nth_error_Some; congruence). assert (L2 : (Z.to_nat a + j * Z.to_nat k < List.length x)%nat) by (apply nth_error_Some; congruence).
      rewrite (Nat.min_l (Z.to_nat a)) by lia. rewrite V.
      replace (Z.to_nat (a + len l * k)) with (Z.to_nat a + List.length l * Z.to_nat k)%nat by (unfold len; rewrite Z2Nat.inj_add, Z2Nat.inj_mul, Nat2Z.id by nia; reflexivity).
      destruct (Nat.ltb_spec (j * Z.to_nat k) (Nat.min (Z.to_nat a + List.length l * Z.to_nat k) (List.length x) - Z.to_nat a)); [reflexivity|]. nia.
    - apply nth_error_None in N. destruct (Nat.ltb_spec (j * Z.to_nat k) (Nat.min (Z.to_nat (a + len l * k)) (List.length x) - Nat.min (Z.to_nat a) (List.length x))) as [C|C]; [|reflexivity]. exfalso.
      replace (Z.to_nat (a + len l * k)) with (Z.to_nat a + List.length l * Z.to_nat k)%nat in C by (unfold len; rewrite Z2Nat.inj_add, Z2Nat.inj_mul, Nat2Z.id by nia; reflexivity). nia. }
  rewrite E. unfold len. now rewrite Z.eqb_refl.
Qed.
(** Words in blocks of [k]: word [i] of block [j]. *)
Lemma block_nth {B} (f : B -> list Qc) k : forall bs j i b, (forall b, In b bs -> List.length (f b) = k) -> nth_error bs j = Some b -> (i < k)%nat ->
  nth_error (flat_map f bs) (j * k + i)%nat = nth_error (f b) i.
Proof.
  induction bs as [|b0 bs IH]; intros j i b L N I; [now destruct j|]. cbn [flat_map]. pose proof (L b0 (or_introl eq_refl)) as L0. destruct j as [|j].
  - injection N as ->. cbn. apply nth_error_app1. lia.
  - cbn in N. rewrite nth_error_app2 by (rewrite L0; cbn; lia). rewrite <- (IH j i b (fun b I => L b (or_intror I)) N I). f_equal. rewrite L0. cbn. lia.
Qed.
Lemma flat_length {B} (f : B -> list Qc) k : forall bs, (forall b, In b bs -> List.length (f b) = k) -> List.length (flat_map f bs) = (List.length bs * k)%nat.
Proof. induction bs as [|b bs IH]; intros L; [reflexivity|]. cbn. rewrite app_length, IH, (L b); [reflexivity | now left | intros; apply L; now right]. Qed.
Lemma strided_blocks {B} (f : B -> list Qc) (g : B -> Qc) x p k i bs n : stands x p (flat_map f bs) -> (forall b, In b bs -> List.length (f b) = k) -> (i < k)%nat ->
  (forall b, In b bs -> nth_error (f b) i = Some (g b)) -> n = len bs -> strided x (p + Z.of_nat i) n (Z.of_nat k) = Some (map g bs).
Proof.
  intros S L I G ->. replace (len bs) with (len (map g bs)) by (unfold len; now rewrite map_length). apply stands_iff in S as (P & PL & S). apply strided_reads; [lia.. |].
  intros j v N. rewrite nth_error_map in N. destruct (nth_error bs j) as [b|] eqn:NB; [|discriminate]. apply some_inj in N. subst v.
  pose proof (nth_error_In _ _ NB) as IB. rewrite Nat2Z.id. replace (Z.to_nat (p + Z.of_nat i) + j * k)%nat with (Z.to_nat p + (j * k + i))%nat by lia.
  assert (JL : (j < List.length bs)%nat) by (apply nth_error_Some; congruence). rewrite S by (rewrite (flat_length f k bs L); nia). rewrite (block_nth f k bs j i b L NB I). now apply G.
Qed.
Lemma pieces_concat {B} m : forall (ls : list (list B)) n, n = List.length ls -> (forall l, In l ls -> List.length l = m) -> pieces n m (concat ls) = ls.
Proof.
  induction ls as [|l ls IH]; intros n -> L; [reflexivity|]. cbn [List.length pieces concat]. pose proof (L l (or_introl eq_refl)) as E.
  rewrite firstn_app, E, Nat.sub_diag. cbn [firstn]. rewrite app_nil_r, firstn_all2 by lia. f_equal. rewrite skipn_app, E, Nat.sub_diag. cbn [skipn]. rewrite skipn_all2 by lia. apply IH; [reflexivity|]. intros l' I. apply L. now right.
Qed.
Lemma flat_map_flat {A B C} (f : B -> list C) (g : A -> list B) l : flat_map f (flat_map g l) = flat_map (fun a => flat_map f (g a)) l.
Proof. induction l as [|a l IH]; [reflexivity|]. cbn. now rewrite flat_map_app, IH. Qed.
Definition bin_words (b : Qc * list Qc) : list Qc := fst b :: snd b.
Lemma bins_read x p rows n_out n_mu : stands x p (flat_map (flat_map bin_words) rows) ->
  (forall r, In r rows -> List.length r = n_out /\ forall b, In b r -> List.length (snd b) = S n_mu) ->
  bins x p (len rows) (Z.of_nat n_out) (Z.of_nat n_mu) = Some (map (fun r => in_ev (map fst r)) rows, map (map snd) rows).
Proof.
  intros S L. unfold bins.
  replace ((0 <=? len rows) && (0 <=? Z.of_nat n_out) && (0 <=? Z.of_nat n_mu)) with true by (unfold len; symmetry; rewrite !andb_true_iff, !Z.leb_le; lia).
  assert (LR : List.length (concat rows) = (List.length rows * n_out)%nat).
  { clear S. induction rows as [|r rows IH]; [reflexivity|]. cbn. rewrite app_length, IH by (intros; apply L; now right). now rewrite (proj1 (L r (or_introl eq_refl))). }
  assert (LB : forall b, In b (concat rows) -> List.length (bin_words b) = (n_mu + 2)%nat) by (intros b I; apply in_concat in I as (r & I & J); cbn; rewrite (proj2 (L r I) b J); lia).
  assert (F : flat_map (flat_map bin_words) rows = flat_map bin_words (concat rows)) by (clear; induction rows as [|r rows IH]; [reflexivity|]; cbn; now rewrite flat_map_app, IH).
  rewrite F in S.
  pose proof (strided_blocks bin_words fst x p (n_mu + 2) 0 (concat rows) (len rows * Z.of_nat n_out) S LB ltac:(lia) ltac:(reflexivity)) as T.
  rewrite Z.add_0_r in T. replace (Z.of_nat (n_mu + 2)) with (Z.of_nat n_mu + 2) in T by lia. rewrite T by (unfold len; rewrite LR; lia). clear T.
  rewrite (stretch_reads x p _ _ S) by (unfold len; rewrite (flat_length bin_words (n_mu + 2) _ LB), LR; lia).
  unfold len. rewrite !Nat2Z.id. replace (Z.to_nat (Z.of_nat n_mu + 2)) with (n_mu + 2)%nat by lia. f_equal. f_equal.
  - unfold mega. rewrite map_map. rewrite concat_map. rewrite pieces_concat.
    + apply map_ext. intros r. unfold in_ev. now rewrite map_map.
    + now rewrite map_length.
    + intros l I. apply in_map_iff in I as (r & <- & I). rewrite map_length. now apply L.
  - rewrite <- F. rewrite flat_map_concat_map. rewrite pieces_concat.
    + rewrite map_map. apply map_ext_in. intros r I. rewrite flat_map_concat_map, pieces_concat.
      * rewrite map_map. now apply map_ext.
      * rewrite map_length. symmetry. now apply L.
      * intros l J. apply in_map_iff in J as (b & <- & J). cbn. rewrite (proj2 (L r I) b J). lia.
    + now rewrite map_length.
    + intros l I. apply in_map_iff in I as (r & <- & I). rewrite (flat_length bin_words (n_mu + 2)), (proj1 (L r I)); [reflexivity|]. intros b J. cbn. rewrite (proj2 (L r I) b J). lia.
Qed.
Lemma equally_read n mu : equal_cosines n mu (Lines (equally (Z.of_nat n) mu)).
Proof.
  eexists. split; [reflexivity|]. unfold equally. split; [|split].
  - rewrite map_map. cbn. apply combine_snd. now rewrite seq_length.
  - intros t I. apply in_map_iff in I as (u & <- & _). reflexivity.
  - intros i t N. rewrite nth_error_map in N. destruct (nth_error (combine _ _) i) as [[j v]|] eqn:E; [|discriminate]. apply some_inj in N. subst t. cbn [fst snd Cont_Model.pc].
    assert (j = i) as ->.
    { assert (X : nth_error (map fst (combine (seq 0 (List.length mu)) mu)) i = Some j) by (rewrite nth_error_map, E; reflexivity). rewrite combine_fst in X by now rewrite seq_length.
      assert (I : (i < List.length mu)%nat). { rewrite <- (seq_length (List.length mu) 0). apply nth_error_Some. congruence. }
      rewrite (nth_error_nth' _ 0%nat) in X by now rewrite seq_length. injection X as <-. rewrite seq_nth by exact I. lia. }
    cbn [Cont_Model.pc snd]. do 2 f_equal. lia.
Qed.
Lemma stands_block {B} (f : B -> list Qc) k x p bs j b : stands x p (flat_map f bs) -> (forall b, In b bs -> List.length (f b) = k) -> nth_error bs j = Some b -> stands x (p + Z.of_nat j * Z.of_nat k) (f b).
Proof.
  intros S L N. apply nth_error_split in N as (l1 & l2 & -> & LJ). rewrite flat_map_app in S. cbn [flat_map] in S. apply stands_app in S as [_ S]. apply stands_app in S as [S _].
  rewrite (flat_length f k) in S by (intros; apply L; apply in_or_app; now left). rewrite LJ in S. now replace (p + Z.of_nat j * Z.of_nat k) with (p + Z.of_nat (j * k)) by lia.
Qed.
Lemma range_nth n j : (j < n)%nat -> nth_error (range (Z.of_nat n)) j = Some (Z.of_nat j).
Proof. intros J. unfold range. rewrite Nat2Z.id, nth_error_map, (nth_error_nth' _ 0%nat), seq_nth by (rewrite ?seq_length; lia). reflexivity. Qed.
Lemma spectrum_reads x k n_mu s : (0 < n_mu)%nat -> stands x (k + 1) (flat_map point_words s) -> (forall b, In b s -> List.length (snd b) = n_mu) ->
  exists d mu, continuous_bin x (Z.of_nat n_mu) k (len s) = Some (d, mu) /\ spectrum_read n_mu s d mu.
Proof.
  intros P S L. assert (LB : forall b, In b s -> List.length (point_words b) = (n_mu + 3)%nat) by (intros b I; cbn; rewrite (L b I); lia). unfold continuous_bin.
  pose proof (strided_blocks point_words (fun b => Cont_Model.px (fst b)) x (k + 1) (n_mu + 3) 0 s (len s) S LB ltac:(lia) ltac:(reflexivity) eq_refl) as T0.
  pose proof (strided_blocks point_words (fun b => Cont_Model.pp (fst b)) x (k + 1) (n_mu + 3) 1 s (len s) S LB ltac:(lia) ltac:(reflexivity) eq_refl) as T1.
  pose proof (strided_blocks point_words (fun b => Cont_Model.pc (fst b)) x (k + 1) (n_mu + 3) 2 s (len s) S LB ltac:(lia) ltac:(reflexivity) eq_refl) as T2.
  replace (Z.of_nat (n_mu + 3)) with (Z.of_nat n_mu + 3) in T0, T1, T2 by lia.
  replace (k + 1 + Z.of_nat 0) with (k + 1) in T0 by lia. replace (k + 1 + Z.of_nat 1) with (k + 2) in T1 by lia. replace (k + 1 + Z.of_nat 2) with (k + 3) in T2 by lia.
  rewrite T0, T1, T2. clear T0 T1 T2.
  rewrite (Law_Proofs.some_all (cosine_bin x (Z.of_nat n_mu) k) (range (len s)) (map (fun b => Lines (equally (Z.of_nat n_mu) (snd b))) s)).
  - eexists. eexists. split; [reflexivity|]. split.
    + f_equal. unfold mega. rewrite !map_map. now rewrite Law_Proofs.triples_map.
    + clear. induction s as [|b s IH]; constructor; [apply equally_read | exact IH].
  - assert (G : forall j b, nth_error s j = Some b -> cosine_bin x (Z.of_nat n_mu) k (Z.of_nat j) = Some (Lines (equally (Z.of_nat n_mu) (snd b)))).
    { intros j b N. unfold cosine_bin. destruct (Z.ltb_spec 0 (Z.of_nat n_mu)); [|lia].
      pose proof (stands_block point_words (n_mu + 3) x (k + 1) s j b S LB N) as B. unfold point_words in B.
      apply stands_cons in B as [_ B]. apply stands_cons in B as [_ B]. apply stands_cons in B as [_ B].
      rewrite (stretch_reads x _ (snd b)); [reflexivity | | unfold len; now rewrite (L b (nth_error_In _ _ N))].
      match type of B with stands _ ?u _ => match goal with |- stands _ ?v _ => replace v with u by lia end end. exact B. }
    clear -G. unfold len, range. rewrite Nat2Z.id. assert (G' : forall j b, nth_error s j = Some b -> cosine_bin x (Z.of_nat n_mu) k (Z.of_nat (0 + j)) = Some (Lines (equally (Z.of_nat n_mu) (snd b)))) by exact G. clear G. revert G'. generalize 0%nat as o.
    induction s as [|b s IH]; intros o G; [constructor|]. cbn [List.length seq map]. constructor; [rewrite <- (G 0%nat b eq_refl); do 2 f_equal; lia|]. apply IH. intros j b' N. rewrite <- (G (S j) b' N). do 2 f_equal. lia.
Qed.
Lemma int_qzs l : map int (map qz l) = l.
Proof. rewrite map_map. rewrite <- (map_id l) at 2. apply map_ext. intros z. apply int_qz. Qed.
Lemma continuous_reads x p n_mu locs spectra es : (0 < n_mu)%nat -> List.length locs = List.length es -> stands x p (map qz locs ++ map (fun s => qz (len s)) spectra) ->
  Forall2 (fun k s => stands x (k + 1) (flat_map point_words s) /\ forall b, In b s -> List.length (snd b) = n_mu) locs spectra ->
  exists ds mus, continuous x p (len es) (Z.of_nat n_mu) (in_ev es) = Some (Correlated [len es] [2] (in_ev es) ds mus) /\ Forall3 (spectrum_read n_mu) spectra ds mus.
Proof.
  intros P LL S F. apply stands_app in S as [S1 S2]. rewrite map_length in S2. unfold continuous.
  assert (LS : List.length spectra = List.length es) by (rewrite <- LL; symmetry; now apply Law_Proofs.F2_len in F).
  rewrite (stretch_reads x p _ _ S1) by (unfold len; now rewrite map_length, LL). rewrite LL in S2. fold (len es) in S2.
  rewrite (stretch_reads x _ _ _ S2) by (unfold len; now rewrite map_length, LS). cbn [option_map].
  replace (map (fun s => qz (len s)) spectra) with (map qz (map len spectra)) by (rewrite map_map; reflexivity). rewrite !int_qzs.
  assert (G : exists outs, Forall2 (fun a b => continuous_bin x (Z.of_nat n_mu) (fst a) (snd a) = Some b) (combine locs (map len spectra)) outs /\ Forall3 (spectrum_read n_mu) spectra (map fst outs) (map snd outs)).
  { clear -F P. induction F as [|k s locs spectra [S L] _ IH]; [exists []; split; constructor|]. destruct IH as (outs & A & B). destruct (spectrum_reads x k n_mu s P S L) as (d & mu & C & D).
    exists ((d, mu) :: outs). cbn. split; constructor; auto. }
  destruct G as (outs & A & B). rewrite (Law_Proofs.some_all _ _ _ A). eauto.
Qed.
Lemma elastic_reads a e (t : string) (H : el_stands a e) : exists o, elastic_from_ace a = Some o /\
  (let els : list (string * elastic) := match o with Some (e, _) => [(t, e)] | None => [] end in let mus : list (string * list (list Qc)) := match o with Some (_, Some mu) => [(t, mu)] | _ => [] end in
   match e with
   | NoElastic => els = [] /\ mus = []
   | Coherent edges sums => els = [(t, Bragg (in_ev edges) (in_ev sums))] /\ mus = []
   | WithCosines es xs _ mu => els = [(t, Incoherent (mkFn (in_ev es) xs [len es] [2]))] /\ mus = [(t, mu)]
   end).
Proof.
  unfold elastic_from_ace. destruct e as [|edges sums|es xs n_mu mu]; cbn [el_stands] in H.
  - rewrite H. change (0 =? 0) with true. cbv iota. exists None. now split.
  - destruct H as (J & N5 & N6 & L & S). apply Z.eqb_neq in J. rewrite J, N5, N6. change (4 =? 4) with true. change (-1 + 1 =? 0) with true. cbv iota.
    rewrite (int_at_stands _ _ _ _ S). apply stands_cons in S as [_ S]. apply stands_app in S as [S1 S2]. rewrite (stretch_reads _ _ _ _ S1 eq_refl). fold (len edges) in S2. rewrite (stretch_reads _ _ _ _ S2) by (unfold len; now rewrite L).
    eexists. split; [reflexivity|]. now split.
  - destruct H as (J & N5 & N6 & P & L & LM & LL & S & SM). apply Z.eqb_neq in J, N5. rewrite J, N5, N6. replace (Z.of_nat n_mu - 1 + 1) with (Z.of_nat n_mu) by lia. cbv iota.
    rewrite (int_at_stands _ _ _ _ S). apply stands_cons in S as [_ S]. apply stands_app in S as [S1 S2]. rewrite (stretch_reads _ _ _ _ S1 eq_refl). fold (len es) in S2. rewrite (stretch_reads _ _ _ _ S2) by (unfold len; now rewrite L).
    destruct (Z.ltb_spec 0 (Z.of_nat n_mu)); [|lia].
    assert (LC : List.length (concat mu) = (List.length mu * n_mu)%nat). { clear -LL. induction mu as [|m mu IH]; [reflexivity|]. cbn. rewrite app_length, IH by (intros; apply LL; now right). now rewrite (LL m (or_introl eq_refl)). }
    rewrite (stretch_reads _ _ _ _ SM) by (unfold len; rewrite LC, LM; lia). unfold len. rewrite !Nat2Z.id, pieces_concat by (auto; now rewrite LM).
    eexists. split; [reflexivity|]. split; [|reflexivity]. unfold linear, mega, in_ev. rewrite map_length. reflexivity.
Qed.
Lemma table_reads close a s ace_name ns name : before_dot (a_name a) = Some ace_name -> table_says (a_arrays a) s -> loop add_nuclides (a_pairs a) [] = Some ns ->
  exists d, t_from_ace close a name = Some d /\ t_name d = get_thermal_name close ace_name /\ t_awr d = a_awr a /\ t_nuclides d = ns /\ table_read s (a_temperature a) d.
Proof.
  intros D (L & S & O & E) N. unfold t_from_ace. rewrite D, N. rewrite (int_at_stands _ _ _ _ S). apply stands_cons in S as [_ S]. apply stands_app in S as [S1 S2].
  rewrite (stretch_reads _ _ _ _ S1 eq_refl). fold (len (o_es s)) in S2. rewrite (stretch_reads _ _ _ _ S2) by (unfold len; now rewrite L).
  set (t := kelvin (a_temperature a * EV_PER_MEV)). destruct (elastic_reads (a_arrays a) (o_el s) t E) as (o & EO & ER). rewrite EO. clear EO E.
  assert (LN : linear (mega (o_es s)) (o_xs s) = mkFn (in_ev (o_es s)) (o_xs s) [len (o_es s)] [2]) by (unfold linear, mega, len; now rewrite map_length).
  destruct (o_out s) as [sk n_out n_mu rows|n_mu spectra] eqn:EO; cbn [out_stands] in O.
  - destruct O as (N7 & N4 & N3 & LR & LL & SR). rewrite N7, N4, N3.
    assert (M : secondary_mode (if sk then 1 else 0) = Some (if sk then "skewed" else "equal")) by (destruct sk; reflexivity). rewrite M. replace (in_bins _) with true by (destruct sk; reflexivity).
    assert (BR := bins_read (xss (a_arrays a)) (jxs (a_arrays a) 3) rows n_out n_mu SR LL). unfold len in BR at 1. rewrite LR in BR. unfold len at 1. rewrite BR.
    eexists. split; [reflexivity|]. cbn [t_name t_awr t_nuclides]. split; [reflexivity|]. split; [reflexivity|]. split; [reflexivity|]. unfold table_read. rewrite EO, LN.
    cbn [t_kts t_inelastic out_read t_mode t_e_out t_mu_out t_dist]. split; [reflexivity|]. split; [reflexivity|]. split; [repeat split|]. exact ER || (destruct (o_el s); exact ER).
  - destruct O as (N7 & N3 & P & locs & LL & SR & F). rewrite N7, N3. change (secondary_mode 2) with (Some "continuous"). change (in_bins (Some "continuous")) with false. cbv iota.
    replace (Z.of_nat n_mu + 1 - 1) with (Z.of_nat n_mu) by lia. destruct (continuous_reads _ _ n_mu locs spectra (o_es s) P LL SR F) as (ds & mus & C & FD). change (mega (o_es s)) with (in_ev (o_es s)). rewrite C.
    eexists. split; [reflexivity|]. cbn [t_name t_awr t_nuclides]. split; [reflexivity|]. split; [reflexivity|]. split; [reflexivity|]. unfold table_read. rewrite EO. change (mega (o_es s)) with (in_ev (o_es s)) in LN. rewrite LN.
    cbn [t_kts t_inelastic out_read t_mode t_e_out t_mu_out t_dist]. split; [reflexivity|]. split; [reflexivity|]. split; [|exact ER || (destruct (o_el s); exact ER)]. repeat split. exists ds, mus. split; [reflexivity | exact FD].
Qed.

(** ** HDF5 *)
Definition front (k : string) (c : node) (n : node) : node := let 'Node a d ks := n in Node a d ((k, c) :: ks).
Lemma create_front k c k' x n : String.eqb k' k = false -> create k' x (front k c n) = option_map (front k c) (create k' x n).
Proof. intros E. destruct n as [a d ks]. cbn [front create look]. rewrite E. destruct (look k' ks); reflexivity. Qed.
Lemma set_front k c a v n : set_attr a v (front k c n) = front k c (set_attr a v n).
Proof. now destruct n. Qed.
Lemma law_front c d n : law_node d (front "xs" c n) = option_map (front "xs" c) (law_node d n).
Proof.
  destruct d as [[e|bp it es ds r s|bp it es ds mus|m k awr q] a]; cbn [law_node].
  - rewrite set_front. destruct a as [a|].
    + destruct (angle_node a) as [x|]; [|reflexivity]. rewrite create_front by reflexivity. destruct (create "angle" x _) as [n'|]; [|reflexivity]. cbn [option_map].
      destruct e as [e|]; [|reflexivity]. destruct (energy_node e group) as [y|]; [|reflexivity]. now rewrite create_front by reflexivity.
    + destruct e as [e|]; [|reflexivity]. destruct (energy_node e group) as [y|]; [|reflexivity]. now rewrite create_front by reflexivity.
  - rewrite set_front. unfold incident_node. destruct (_ =? _)%nat; [|reflexivity]. rewrite create_front by reflexivity. destruct (create "energy" _ _) as [n'|]; [|reflexivity]. cbn [option_map].
    destruct (parameters ds r) as [r'|]; [|reflexivity]. destruct (parameters ds s) as [s'|]; [|reflexivity]. unfold spectra_node. now rewrite create_front by reflexivity.
  - unfold correlated_node. rewrite set_front. unfold incident_node. destruct (_ =? _)%nat; [|reflexivity]. rewrite create_front by reflexivity. destruct (create "energy" _ _) as [n'|]; [|reflexivity]. cbn [option_map].
    destruct (forallb has_x ds && matching ds mus); [|reflexivity]. unfold spectra_node. rewrite create_front by reflexivity. destruct (create "energy_out" _ _) as [n2|]; [|reflexivity]. cbn [option_map]. now rewrite create_front by reflexivity.
  - cbn [option_map]. now rewrite !set_front.
Qed.
Lemma law_of_front c n : law_of (front "xs" c n) = law_of n.
Proof. destruct n as [a d ks]. reflexivity. Qed.
Lemma law_after x d : law_fine d -> exists n d', law_node d (Node [] None [("xs", x)]) = Some n /\ kid n "xs" = Some x /\ law_of n = Some d' /\ kept_law d d' /\ (plain_law d -> d' = d).
Proof.
  intros F. destruct (law_back d None F) as (n & d' & W & R & K & _ & P). cbn [base] in W. exists (front "xs" x n), d'. change (Node [] None [("xs", x)]) with (front "xs" x group). rewrite law_front, W, law_of_front.
  split; [reflexivity|]. split; [now destruct n|]. auto.
Qed.
Definition at_node (d : thermal) (mode t : string) : option node := match write_elastic d t group with Some g => write_inelastic d mode t g | None => None end.
Lemma write_temperatures_all d mode ts : forall n, write_temperatures d mode ts n = write_all (at_node d mode) (map (fun t => (t, t)) ts) n.
Proof.
  induction ts as [|t ts IH]; intros n; [reflexivity|]. cbn [write_temperatures map write_all]. unfold at_node. destruct (write_elastic d t group) as [g|]; [|reflexivity]. destruct (write_inelastic d mode t g) as [g'|]; [|reflexivity].
  destruct (create t g' n) as [n'|]; [|reflexivity]. apply IH.
Qed.
Lemma elastic_back e : elastic_fine e -> exists n, elastic_node e = Some n /\ elastic_of n = Some (Some e).
Proof.
  destruct e as [x f|f]; cbn [elastic_fine elastic_node]; intros F.
  - rewrite F, Nat.eqb_refl. eexists. split; reflexivity.
  - destruct (fn_back f F) as (n & W & R). exists n. split; [exact W|]. unfold fn_node in W. unfold fn_fine in F. rewrite F, Nat.eqb_refl in W. injection W as <-. unfold elastic_of. evaluate. now rewrite R.
Qed.
Definition binned (d : thermal) : Prop := t_inelastic d <> [] /\ (t_mode d = Some "equal" \/ t_mode d = Some "skewed").
Definition spread (d : thermal) : Prop := t_inelastic d <> [] /\ t_mode d = Some "continuous".
Definition entry_kept (d : thermal) (t : string) (r : entry) : Prop :=
  r_elastic r = look t (t_elastic d) /\ back_when (t_elastic d <> []) (look t (t_elastic_mu d)) (r_elastic_mu r) /\ r_inelastic r = look t (t_inelastic d) /\
  back_when (binned d) (look t (t_e_out d)) (r_e_out r) /\ back_when (binned d) (look t (t_mu_out d)) (r_mu_out r) /\
  (spread d -> exists l l', look t (t_dist d) = Some l /\ r_dist r = Some l' /\ (exists a, kept_law (l, None) (l', a)) /\ (plain_law (l, None) -> l' = l)) /\
  (~ spread d -> r_dist r = None).
Lemma elastic_part d t : complete_at d t -> exists ks e mu, write_elastic d t group = Some (Node [] None ks) /\ (forall k, String.eqb k "elastic" = false -> look k ks = None) /\
  (forall ks', read_elastic (Node [] None (ks ++ ks')) = match ks with [] => read_elastic (Node [] None ks') | _ => Some (e, mu) end) /\
  (ks = [] -> e = None /\ mu = None) /\ e = look t (t_elastic d) /\ back_when (t_elastic d <> []) (look t (t_elastic_mu d)) mu.
Proof.
  intros [E _]. unfold write_elastic. destruct (t_elastic d) as [|e0 l0] eqn:EL.
  - exists [], None, None. split; [reflexivity|]. split; [reflexivity|]. split; [reflexivity|]. split; [auto|]. split; [reflexivity|]. split; [contradiction|reflexivity].
  - destruct (E ltac:(discriminate)) as (e & L & F & M). rewrite <- EL in *. rewrite L. destruct (elastic_back e F) as (x & W & R). rewrite W. unfold group at 1. cbn [create look app].
    destruct (t_elastic_mu d) as [|m0 lm] eqn:EM.
    + unfold group. cbn [create look app]. eexists. exists (Some e), None. split; [reflexivity|]. split; [intros k K; cbn; now rewrite K|]. split; [|split; [discriminate|]].
      * intros ks'. unfold read_elastic. evaluate. rewrite R. reflexivity.
      * split; [reflexivity|]. split; [reflexivity|]. intros N. exfalso. apply N. rewrite EL. discriminate.
    + rewrite <- EM in *. destruct (look t (t_elastic_mu d)) as [mu|] eqn:LM; [|exfalso; apply M; [rewrite EM; discriminate|reflexivity]].
      unfold group. cbn [create look app String.eqb Ascii.eqb Bool.eqb]. eexists. exists (Some e), (Some mu). split; [reflexivity|]. split; [intros k K; cbn; now rewrite K|]. split; [|split; [discriminate|]].
      * intros ks'. unfold read_elastic. evaluate. rewrite R. reflexivity.
      * split; [reflexivity|]. split; [reflexivity|]. intros N. exfalso. apply N. rewrite EL. discriminate.
Qed.
Lemma in_bins_mode m : in_bins (Some m) = true <-> m = "equal" \/ m = "skewed".
Proof.
  unfold in_bins. rewrite mem_iff. cbn [In]. intuition auto.
Qed.
Lemma entry_back d t : complete_at d t -> forall mode, t_mode d = Some mode ->
  exists n, at_node d mode t = Some n /\ forall g, kid g t = Some n -> exists r, read_entry mode g t = Some (t, r) /\ entry_kept d t r.
Proof.
  intros C mode M. destruct (elastic_part d t C) as (ks & e & mu & WE & OE & RE & NE & EE & EM). destruct C as [_ C]. unfold at_node. rewrite WE. unfold write_inelastic.
  assert (G : forall ks' f eo mo l, read_elastic (Node [] None ks') = Some (None, None) -> read_inelastic mode (Node [] None (ks ++ ks')) = Some (f, eo, mo, l) ->
    forall g, kid g t = Some (Node [] None (ks ++ ks')) -> read_entry mode g t = Some (t, mkEntry e mu f eo mo l)).
  { intros ks' f eo mo l R0 R g K. unfold read_entry. rewrite K, RE. destruct ks as [|k0 ks0].
    - rewrite R0. destruct (NE eq_refl) as [-> ->]. cbn [app] in *. now rewrite R.
    - now rewrite R. }
  destruct (t_inelastic d) as [|i0 li] eqn:EI.
  - exists (Node [] None ks). split; [reflexivity|]. intros g K. eexists. split.
    + apply (G [] None None None None); [reflexivity| |rewrite app_nil_r; exact K]. unfold read_inelastic. cbn [kid]. rewrite app_nil_r, OE by reflexivity. reflexivity.
    + unfold entry_kept, binned, spread. cbn [r_elastic r_elastic_mu r_inelastic r_e_out r_mu_out r_dist]. rewrite EI. repeat split; auto; try (exact (proj1 EM)); try (exact (proj2 EM)); try (intros [X _]; contradiction).
  - destruct (C ltac:(discriminate)) as (f & L & F & B & D). rewrite <- EI in *. rewrite L. destruct (fn_back f F) as (x & W & R). rewrite W. unfold group. cbn [create look app].
    assert (NI : t_inelastic d <> []) by (rewrite EI; discriminate).
    assert (K0 : look "inelastic" ks = None) by now apply OE.
    assert (KI : forall c, kid (Node [] None (ks ++ [("inelastic", c)])) "inelastic" = Some c) by (intros c; cbn [kid]; now apply look_app_eq).
    assert (R0 : forall c, read_elastic (Node [] None [("inelastic", c)]) = Some (None, None)) by reflexivity.
    destruct (in_bins (Some mode)) eqn:IB.
    + apply in_bins_mode in IB. assert (BM : t_mode d = Some "equal" \/ t_mode d = Some "skewed") by (rewrite M; destruct IB as [-> | ->]; auto). destruct (B BM) as [B1 B2].
      destruct (look t (t_e_out d)) as [eo|] eqn:L1; [|contradiction]. destruct (look t (t_mu_out d)) as [mo|] eqn:L2; [|contradiction].
      cbn [create look app String.eqb Ascii.eqb Bool.eqb]. rewrite K0. eexists. split; [reflexivity|]. intros g K. eexists. split.
      * eapply G; [apply R0| |exact K]. unfold read_inelastic. rewrite KI. evaluate. rewrite R. replace (in_bins (Some mode)) with true by (symmetry; now apply in_bins_mode). unfold rows_at, cube_at. evaluate. reflexivity.
      * unfold entry_kept, binned, spread. cbn [r_elastic r_elastic_mu r_inelastic r_e_out r_mu_out r_dist]. rewrite L1, L2.
        split; [exact EE|]. split; [exact EM|]. split; [now symmetry|]. split; [split; tauto|]. split; [split; tauto|]. split; [|reflexivity]. intros [_ X]. exfalso. rewrite M in X. destruct IB as [-> | ->]; discriminate.
    + assert (NB : ~ (t_mode d = Some "equal" \/ t_mode d = Some "skewed")). { intros X. rewrite M in X. assert (Y : in_bins (Some mode) = true); [apply in_bins_mode; destruct X as [[= ->] | [= ->]]; auto | congruence]. }
      destruct (String.eqb_spec mode "continuous") as [->|NC].
      * destruct (D M) as (l & LL & LF). rewrite LL. destruct (law_after x (l, None) LF) as (n & [l' a'] & WN & KX & RL & KL & PL). rewrite WN. cbn [create]. rewrite K0. eexists. split; [reflexivity|]. intros g K. eexists. split.
        -- eapply G; [apply R0| |exact K]. unfold read_inelastic. rewrite KI, KX, R, IB. change (String.eqb "continuous" "continuous") with true. cbv iota. rewrite RL. reflexivity.
        -- unfold entry_kept, binned, spread. cbn [r_elastic r_elastic_mu r_inelastic r_e_out r_mu_out r_dist fst].
           split; [exact EE|]. split; [exact EM|]. split; [now symmetry|]. split; [split; tauto|]. split; [split; tauto|]. split; [|tauto]. intros _. exists l, l'. split; [exact LL|]. split; [reflexivity|]. split; [exists a'; exact KL|].
           intros P. specialize (PL P). congruence.
      * cbn [create]. rewrite K0. eexists. split; [reflexivity|]. intros g K. eexists. split.
        -- eapply G; [apply R0| |exact K]. unfold read_inelastic. rewrite KI. evaluate. rewrite R, IB. apply String.eqb_neq in NC. rewrite NC. reflexivity.
        -- unfold entry_kept, binned, spread. cbn [r_elastic r_elastic_mu r_inelastic r_e_out r_mu_out r_dist].
           split; [exact EE|]. split; [exact EM|]. split; [now symmetry|]. split; [split; tauto|]. split; [split; tauto|]. split; [|reflexivity]. intros [_ X]. congruence.
Qed.
Lemma look_set {A} k k' (v : A) l : look k (set_at k' v l) = if String.eqb k k' then Some v else look k l.
Proof.
  induction l as [|[k0 a] l IH]; cbn; [reflexivity|]. destruct (String.eqb_spec k' k0) as [->|N]; cbn.
  - destruct (String.eqb k k0); reflexivity.
  - destruct (String.eqb_spec k k0) as [->|N']; [|exact IH]. destruct (String.eqb_spec k0 k') as [E|_]; [now subst|reflexivity].
Qed.
Lemma collect_look {A} (f : entry -> option A) t l : NoDup (map fst l) -> forall acc,
  look t (collect f l acc) = match look t l with Some e => match f e with Some v => Some v | None => look t acc end | None => look t acc end.
Proof.
  induction l as [|[k e] l IH]; intros N acc; [reflexivity|]. cbn [collect look]. inversion N as [|? ? N1 N2]; subst. rewrite (IH N2). destruct (String.eqb_spec t k) as [->|NE].
  - apply look_none in N1. rewrite N1. destruct (f e) as [v|]; [now rewrite look_set, String.eqb_refl | reflexivity].
  - destruct (look t l) as [e'|].
    + destruct (f e'); [reflexivity|]. destruct (f e); [|reflexivity]. rewrite look_set. now apply String.eqb_neq in NE; rewrite NE.
    + destruct (f e); [|reflexivity]. rewrite look_set. now apply String.eqb_neq in NE; rewrite NE.
Qed.
Lemma kt_names kts : map fst (combine (map kelvin kts) kts) = map kelvin kts.
Proof. apply combine_fst, map_length. Qed.
Lemma kt_back kts : map kelvin (map snd (ordered (combine (map kelvin kts) kts))) = map fst (ordered (combine (map kelvin kts) kts)).
Proof.
  rewrite map_map. apply map_ext_in. intros [t q] I. apply (Permutation_in _ (ordered_perm _)) in I. cbn. clear - I. induction kts as [|x l IH]; [contradiction|]. destruct I as [[= <- <-]|I]; [reflexivity | now apply IH].
Qed.
Lemma dup_fst (ts : list string) : map fst (map (fun t => (t, t)) ts) = ts.
Proof. rewrite map_map. apply map_id. Qed.
Lemma into_at d mode ts m t : Forall2 (into (at_node d mode)) (map (fun t => (t, t)) ts) m -> NoDup ts -> In t ts -> exists n, look t m = Some n /\ at_node d mode t = Some n.
Proof.
  intros F N I. pose proof (into_keys _ _ _ F) as K. rewrite dup_fst in K. remember (map (fun t => (t, t)) ts) as l eqn:El.
  assert (J : In (t, t) l) by (subst l; apply in_map_iff; eauto). clear El.
  assert (E : exists n, In (t, n) m /\ at_node d mode t = Some n).
  { clear K. induction F as [|e [k n] l m [KE E] F IH]; [contradiction|]. destruct J as [->|J]; [|destruct (IH J) as (n' & J' & E'); exists n'; split; [now right|exact E']]. cbn in *. subst k. exists n. auto. }
  destruct E as (n & J' & E). exists n. split; [|exact E]. apply In_look; [now rewrite K | exact J'].
Qed.
Lemma thermal_back d : thermal_fine d -> exists g, thermal_node d = Some g /\ exists d', thermal_of (t_name d) g = Some d' /\ kept_thermal d d'.
Proof.
  intros (M0 & N & C). destruct (t_mode d) as [mode|] eqn:M; [clear M0 | contradiction]. unfold thermal_node. rewrite M.
  destruct (write_all_ok (fun q => Some (dataset (VNum q))) [] None (combine (t_temperatures d) (t_kts d)) []) as (mk & W1 & R1); [discriminate | cbn; unfold t_temperatures; now rewrite kt_names|].
  change (Node [] None []) with group in W1. cbn [app] in W1. rewrite W1. cbn [create look app]. rewrite write_temperatures_all.
  match goal with |- context [write_all _ _ (Node ?a ?b ?c)] => destruct (write_all_ok (at_node d mode) a b (map (fun t => (t, t)) (t_temperatures d)) c) as (m & W2 & R2) end.
  { intros k a I. apply in_map_iff in I as (t & [= <- <-] & I). destruct (entry_back d t (C t I) mode M) as (n & E & _). congruence. }
  { cbn [map fst app]. rewrite dup_fst. constructor; [|exact N]. intros I. unfold t_temperatures in I. apply in_map_iff in I as (q & E & _). pose proof (kelvin_k q) as K. rewrite E in K. discriminate. }
  rewrite W2. eexists. split; [reflexivity|]. unfold thermal_of. evaluate.
  rewrite (read_all_ok (fun q => Some (dataset (VNum q))) (fun n => num (value n)) [] None _ _ ltac:(intros k a n _ [= <-]; reflexivity) R1). cbn [strs].
  set (names := map fst (ordered (combine (t_temperatures d) (t_kts d)))).
  assert (KB : map kelvin (map snd (ordered (combine (t_temperatures d) (t_kts d)))) = names) by apply kt_back. rewrite KB.
  assert (PN : Permutation names (t_temperatures d)) by (unfold names; rewrite ordered_perm; unfold t_temperatures; now rewrite kt_names).
  match goal with |- context [read_entry mode ?g] => set (G := g) end.
  assert (ES : exists es, Forall2 (fun t e => read_entry mode G t = Some e) names es /\ map fst es = names /\ forall t r, In (t, r) es -> entry_kept d t r).
  { assert (IN : forall t, In t names -> In t (t_temperatures d)) by (intros t; apply Permutation_in, PN). clear PN KB. clearbody names. induction names as [|t names IH]; [exists []; split; [constructor|]; split; [reflexivity|]; intros t r []|].
    destruct IH as (es & A & B & D); [intros; apply IN; now right|]. assert (I : In t (t_temperatures d)) by (apply IN; now left). destruct (into_at _ _ _ _ _ R2 N I) as (n & LN & E). destruct (entry_back d t (C t I) mode M) as (n' & E' & R).
    assert (n' = n) by congruence. subst n'. destruct (R G) as (r & RR & RK).
    - unfold G. cbn [kid look]. destruct (String.eqb_spec t "kTs") as [->|_]; [exfalso; unfold t_temperatures in I; apply in_map_iff in I as (q & EQ & _); pose proof (kelvin_k q) as K; rewrite EQ in K; discriminate | exact LN].
    - exists ((t, r) :: es). split; [now constructor|]. split; [cbn; now rewrite B|]. intros t' r' [[= <- <-]|I']; [exact RK | now apply D]. }
  destruct ES as (es & A & B & D). rewrite (Law_Proofs.some_all _ _ _ A). eexists. split; [reflexivity|].
  assert (NE : NoDup (map fst es)) by (rewrite B; apply (Permutation_NoDup (Permutation_sym PN) N)).
  assert (LE : forall t, (In t (t_temperatures d) -> exists r, look t es = Some r /\ entry_kept d t r) /\ (~ In t (t_temperatures d) -> look t es = None)).
  { intros t. split; intros I.
    - apply (Permutation_in _ (Permutation_sym PN)) in I. rewrite <- B in I. destruct (look t es) as [r|] eqn:L; [|apply look_none in L; contradiction]. exists r. split; [reflexivity|]. apply D. now apply look_In.
    - apply look_none. rewrite B. intros J. apply I. now apply (Permutation_in _ PN). }
  unfold kept_thermal. cbn [t_name t_awr t_mode t_nuclides t_kts t_temperatures t_elastic t_elastic_mu t_inelastic t_e_out t_mu_out t_dist]. repeat (split; [reflexivity || (now rewrite M)|]).
  split. { rewrite ordered_perm. unfold t_temperatures. now rewrite combine_snd by apply map_length. }
  split. { unfold t_temperatures. cbn [t_kts]. unfold t_temperatures in KB. rewrite KB. apply sorted_keys, ordered_sorted. }
  intros t. destruct (LE t) as [LI LO]. rewrite !collect_look by exact NE. cbn [look].
  assert (DEC : In t (t_temperatures d) \/ ~ In t (t_temperatures d)) by (destruct (in_dec string_dec t (t_temperatures d)); auto). destruct DEC as [I|I].
  - destruct (LI I) as (r & L & K1 & K2 & K3 & K4 & K5 & K6 & K7). rewrite L.
    assert (X : forall A (o : option A), match o with Some v => Some v | None => None end = o) by (intros ? [?|]; reflexivity). rewrite !X. clear X. rewrite K1, K3. unfold back_when, binned, spread in *.
    split; [tauto|]. split; [tauto|]. split; [tauto|]. split; [tauto|]. split; [tauto|]. intros NS. apply K7. tauto.
  - rewrite (LO I). unfold back_when. split; [tauto|]. split; [tauto|]. split; [tauto|]. split; [tauto|]. tauto.
Qed.
Lemma insert_first {A} (e : string * A) l : (forall k, In k (map fst l) -> String.leb (fst e) k = true) -> insert e l = e :: l.
Proof. destruct l as [|f l]; [reflexivity|]. intros H. cbn [insert]. now rewrite (H (fst f) (or_introl eq_refl)). Qed.
Lemma ordered_first {A} (e : string * A) l : (forall k, In k (map fst l) -> String.leb (fst e) k = true /\ k <> fst e) -> exists r, ordered (l ++ [e]) = e :: r.
Proof.
  intros H. assert (S := ordered_sorted (l ++ [e])). assert (P := ordered_perm (l ++ [e])). destruct (ordered (l ++ [e])) as [|x r] eqn:E; [apply Permutation_nil in P; destruct l; discriminate|].
  exists r. f_equal. assert (Ix : In x (l ++ [e])) by (apply (Permutation_in _ P); now left). apply in_app_or in Ix as [Ix|[->|[]]]; [|reflexivity]. exfalso.
  assert (Ie : In e (x :: r)) by (apply (Permutation_in _ (Permutation_sym P)), in_or_app; right; now left). destruct (H (fst x)) as [L NE]; [apply in_map; exact Ix|].
  apply NE. apply String.leb_antisym; [|exact L]. destruct Ie as [->|Ie]; [exact L|]. inversion S as [|? ? S1 S2]; subst. rewrite Forall_forall in S2. now apply S2.
Qed.
Lemma round_trip d f : thermal_fine d -> (forall k, In k (map fst (f_groups f)) -> String.leb (t_name d) k = true /\ k <> t_name d) ->
  exists f' d', t_export d f = Some f' /\ t_from_hdf5 f' = Some d' /\ kept_thermal d d'.
Proof.
  intros F H. destruct (thermal_back d F) as (g & W & d' & R & K). unfold t_export. assert (L : look (t_name d) (f_groups f) = None) by (apply look_none; intros I; now destruct (H _ I)).
  rewrite L, W. eexists. exists d'. split; [reflexivity|]. split; [|exact K]. unfold t_from_hdf5. cbn [f_version f_groups]. change (version_major =? version_major) with true. cbv iota.
  destruct (ordered_first (t_name d, g) (f_groups f) H) as (r & ->). exact R.
Qed.

(** ** Tables in files *)
Lemma F3_len {A B C} (R : A -> B -> C -> Prop) l m n : Forall3 R l m n -> List.length m = List.length l /\ List.length n = List.length l.
Proof. induction 1 as [|? ? ? ? ? ? _ _ IH]; cbn; [auto | lia]. Qed.
Lemma qz_pos n : (0 < n)%nat -> (0 < qz (Z.of_nat n))%Qc.
Proof. intros P. unfold Qclt, qz, qc. cbn [this Q2Qc]. rewrite !Qred_correct. unfold inject_Z, Qlt. cbn. lia. Qed.
Lemma inv_nonneg q : (0 < q)%Qc -> (0 <= 1 / q)%Qc.
Proof.
  intros P. unfold Qcdiv. rewrite Qcmult_1_l. unfold Qcle, Qcinv, Q2Qc. cbn [this]. rewrite (Qred_correct (/ q)). change (Qred 0) with 0%Q. apply Qlt_le_weak, Qinv_lt_0_compat. exact P.
Qed.
Lemma spectra_law_fine a es n_mu spectra ds mus : out_stands a (List.length es) (InSpectra n_mu spectra) -> filled (InSpectra n_mu spectra) -> Forall3 (spectrum_read n_mu) spectra ds mus ->
  law_fine (Correlated [len es] [2] (in_ev es) ds mus, None) /\ plain_law (Correlated [len es] [2] (in_ev es) ds mus, None).
Proof.
  intros (_ & _ & P & locs & LL & _ & F2) FL F3. destruct (F3_len _ _ _ _ F3) as [L1 L2]. pose proof (Law_Proofs.F2_len _ _ _ F2) as L3.
  assert (G : Forall (fit true) ds /\ Forall (fun d => forall w a i c, d <> Cont_Model.Mix w a i c) ds /\ Forall2 (fun d m => List.length m = List.length (all_points d)) ds mus /\ Forall (Forall cosine_fine) mus /\ Forall Cont_Spec.plainly ds /\ Forall (Forall plain_cosine) mus).
  { cbn [filled] in FL. clear -F3 FL P. induction F3 as [|s d mu spectra ds mus [-> C] F3 IH]; [repeat split; constructor|]. destruct IH as (A1 & A2 & A3 & A4 & A5 & A6); [intros; apply FL; now right|].
    assert (LM : List.length mu = List.length s) by (symmetry; now apply Law_Proofs.F2_len in C).
    split; [constructor; [|exact A1]; split; [|now left]; intros E; apply map_eq_nil in E; revert E; apply FL; now left|].
    split; [constructor; [discriminate | exact A2]|]. split; [constructor; [cbn; now rewrite map_length | exact A3]|].
    assert (CF : Forall cosine_fine mu /\ Forall plain_cosine mu).
    { clear -C P. induction C as [|b c s mu (l & -> & _ & D & _) _ IH]; [split; constructor|]. destruct IH as [I1 I2]. split; constructor; auto; [|exact I]. cbn. apply Forall_forall. intros t T. rewrite (D t T). apply inv_nonneg, qz_pos, P. }
    destruct CF. split; [constructor; assumption|]. split; [constructor; [right; reflexivity | exact A5]|]. constructor; assumption. }
  destruct G as (A1 & A2 & A3 & A4 & A5 & A6). split.
  - cbn [law_fine]. split; [split; [reflexivity|]; split; [unfold in_ev; rewrite map_length; lia | exact A1]|]. auto.
  - cbn [plain_law]. auto.
Qed.
Lemma el_fine a e d t : el_stands a e -> el_read t e d -> t_elastic d <> [] -> exists x, look t (t_elastic d) = Some x /\ elastic_fine x /\ (t_elastic_mu d <> [] -> look t (t_elastic_mu d) <> None).
Proof.
  destruct e as [|edges sums|es xs n_mu mu]; cbn [el_stands el_read]; intros S [-> ->] N; [contradiction|..]; cbn [look]; rewrite String.eqb_refl; (eexists; split; [reflexivity|]).
  - split; [cbn; unfold in_ev; rewrite !map_length; symmetry; apply S | intros X; now destruct X].
  - split; [unfold elastic_fine, fn_fine; cbn [fx fy]; unfold in_ev; rewrite map_length; symmetry; apply S | discriminate].
Qed.
Lemma table_fine a s q d : table_says a s -> filled (o_out s) -> table_read s q d -> thermal_fine d.
Proof.
  intros (L & _ & O & E) F (K & I & RO & RE). set (t := kelvin (q * ev)%Qc) in *. assert (T : t_temperatures d = [t]) by (unfold t_temperatures; rewrite K; reflexivity).
  split; [destruct (o_out s); destruct RO as [-> _]; discriminate|]. rewrite T. split; [repeat constructor; intros []|]. intros t' [<-|[]]. split; [now apply (el_fine a (o_el s))|].
  intros _. rewrite I. cbn [look]. rewrite String.eqb_refl. eexists. split; [reflexivity|]. split; [unfold fn_fine; cbn [fx fy]; unfold in_ev; rewrite map_length; now symmetry|].
  destruct (o_out s) as [sk n_out n_mu rows|n_mu spectra]; cbn [out_read] in RO.
  - destruct RO as (M & -> & -> & _). cbn [look]. rewrite String.eqb_refl. split; [intros _; split; discriminate|]. intros X. rewrite M in X. destruct sk; discriminate.
  - destruct RO as (M & _ & _ & ds & mus & -> & F3). split; [intros [X|X]; rewrite M in X; discriminate|]. intros _. cbn [look]. rewrite String.eqb_refl. eexists. split; [reflexivity|].
    now apply (spectra_law_fine a _ n_mu spectra).
Qed.
Lemma single {A} (t k : string) (v : A) : look k [(t, v)] = if String.eqb k t then Some v else None.
Proof. reflexivity. Qed.
Lemma table_same a s q d d' : table_says a s -> filled (o_out s) -> table_read s q d -> kept_thermal d d' -> same_thermal d d'.
Proof.
  intros (L & _ & O & E) F (K & I & RO & RE) (K1 & K2 & K3 & K4 & K5 & _ & K6). set (t := kelvin (q * ev)%Qc) in *. assert (T : t_temperatures d = [t]) by (unfold t_temperatures; rewrite K; reflexivity).
  unfold same_thermal. repeat (split; [assumption|]). split; [rewrite K in *; now apply Permutation_length_1_inv|]. intros k. destruct (K6 k) as ([A1 A2] & [B1 B2] & [C1 C2] & ([D1 D2] & [E1 E2]) & G1 & G2). rewrite T in *.
  assert (NI : t_inelastic d <> []) by (rewrite I; discriminate).
  destruct (String.eqb_spec k t) as [->|NE].
  - assert (IT : In t [t]) by now left. specialize (A1 IT). specialize (C1 IT). split; [exact A1|]. split.
    { destruct (t_elastic d) as [|x l] eqn:EL; [|apply B1; split; [exact IT | discriminate]].
      assert (M : t_elastic_mu d = []) by (destruct (o_el s); cbn [el_read] in RE; destruct RE as [RE1 RE2]; congruence). rewrite M. cbn. apply B2. intros [_ X]. now apply X. }
    split; [exact C1|]. destruct (o_out s) as [sk n_out n_mu rows|n_mu spectra]; cbn [out_read] in RO.
    + destruct RO as (M & _ & _ & DD). assert (BM : t_mode d = Some "equal" \/ t_mode d = Some "skewed") by (rewrite M; destruct sk; auto). split; [apply D1; auto|]. split; [apply E1; auto|]. rewrite DD. cbn. apply G2. intros (_ & _ & X). rewrite M in X. destruct sk; discriminate.
    + destruct RO as (M & EO & MO & ds & mus & DD & F3). split; [rewrite EO; cbn; apply D2; intros (_ & _ & [X|X]); rewrite M in X; discriminate|]. split; [rewrite MO; cbn; apply E2; intros (_ & _ & [X|X]); rewrite M in X; discriminate|].
      destruct G1 as (l & l' & LL & LL' & _ & PL); [auto|]. rewrite LL', LL. f_equal. apply PL. rewrite DD in LL. cbn in LL. rewrite String.eqb_refl in LL. apply some_inj in LL. subst l. now apply (spectra_law_fine a _ n_mu spectra).
  - assert (NT : ~ In k [t]) by (intros [X|[]]; now apply NE). assert (E0 : String.eqb k t = false) by now apply String.eqb_neq.
    rewrite (A2 NT), B2, (C2 NT), D2, E2, G2 by tauto. rewrite I, single, E0.
    assert (X1 : look k (t_elastic d) = None /\ look k (t_elastic_mu d) = None) by (destruct (o_el s); cbn [el_read] in RE; destruct RE as [-> ->]; rewrite ?single, ?E0; auto). destruct X1 as [-> ->].
    destruct (o_out s) as [sk n_out n_mu rows|n_mu spectra]; cbn [out_read] in RO.
    + destruct RO as (_ & -> & -> & ->). rewrite !single, E0. repeat split.
    + destruct RO as (_ & -> & -> & ds & mus & -> & _). rewrite !single, E0. repeat split.
Qed.

(** ** Another temperature *)
Lemma take_joined {A} t (data self : list (string * A)) : joined t self data (take_over t data self).
Proof. intros k. unfold take_over. destruct (look t data) as [v|]; [apply look_set|]. destruct (String.eqb_spec k t) as [->|_]; reflexivity. Qed.
Lemma take_some {A} t (data self : list (string * A)) : take_over t data self <> [] -> self <> [] \/ data <> [].
Proof. unfold take_over. destruct (look t data) as [v|] eqn:E; [|now left]. intros _. right. intros ->. discriminate. Qed.
Lemma data_added self data q : t_kts data = [q] -> ~ In (kelvin q) (t_temperatures self) -> t_name data = t_name self ->
  exists d, add_data self data = Some d /\ with_temperature (kelvin q) self data d /\
    (alike self data -> thermal_fine self -> thermal_fine data -> thermal_fine d).
Proof.
  intros K N E. unfold add_data. unfold t_temperatures at 1. rewrite K. cbn [map hd_error]. apply mem_not in N. rewrite N. apply mem_not in N. rewrite E, String.eqb_refl. cbn [negb]. eexists. split; [reflexivity|]. split.
  - unfold with_temperature. cbn [t_name t_awr t_mode t_nuclides t_kts t_elastic t_elastic_mu t_inelastic t_e_out t_mu_out t_dist]. rewrite K. repeat (split; [reflexivity || apply take_joined|]). apply take_joined.
  - intros (M & AE & AM & AI) (F1 & F2 & F3) (_ & _ & G3). set (t := kelvin q) in *. assert (TD : t_temperatures data = [t]) by (unfold t_temperatures; rewrite K; reflexivity).
    set (d := mkThermal _ _ _ _ _ _ _ _ _ _ _).
    assert (TT : t_temperatures d = t_temperatures self ++ [t]) by (unfold d, t_temperatures; cbn [t_kts]; now rewrite map_app).
    split; [exact F1|]. rewrite TT. split; [apply (Permutation_NoDup (Permutation_app_comm [t] _)); constructor; assumption|].
    assert (NE : t_elastic d <> [] -> t_elastic self <> [] /\ t_elastic data <> []) by (intros X; apply take_some in X as [X|X]; tauto).
    assert (NM : t_elastic_mu d <> [] -> t_elastic_mu self <> [] /\ t_elastic_mu data <> []) by (intros X; apply take_some in X as [X|X]; tauto).
    assert (NI : t_inelastic d <> [] -> t_inelastic self <> [] /\ t_inelastic data <> []) by (intros X; apply take_some in X as [X|X]; tauto).
    intros k I. apply in_app_or in I as [I|[<-|[]]].
    + assert (KT : String.eqb k t = false) by (apply String.eqb_neq; intros ->; contradiction). destruct (F3 k I) as [C1 C2]. split.
      * intros X. apply NE in X as [X _]. destruct (C1 X) as (e & L & FE & FM). exists e. split; [unfold d; cbn [t_elastic]; now rewrite take_joined, KT|]. split; [exact FE|]. intros Y. unfold d. cbn [t_elastic_mu]. rewrite take_joined, KT. apply FM. now apply NM.
      * intros X. apply NI in X as [X _]. destruct (C2 X) as (f & L & FF & FB & FC). exists f. unfold d. cbn [t_inelastic t_e_out t_mu_out t_dist t_mode]. rewrite !take_joined, KT. auto.
    + destruct (G3 t) as [C1 C2]; [rewrite TD; now left|]. split.
      * intros X. apply NE in X as [_ X]. destruct (C1 X) as (e & L & FE & FM). exists e. split; [unfold d; cbn [t_elastic]; now rewrite take_joined, String.eqb_refl, L|]. split; [exact FE|]. intros Y. apply NM in Y as [_ Y]. unfold d. cbn [t_elastic_mu]. rewrite take_joined, String.eqb_refl. specialize (FM Y). destruct (look t (t_elastic_mu data)); [discriminate|contradiction].
      * intros X. apply NI in X as [_ X]. destruct (C2 X) as (f & L & FF & FB & FC). exists f. unfold d. cbn [t_inelastic t_e_out t_mu_out t_dist t_mode]. rewrite !take_joined, String.eqb_refl, L, M. split; [reflexivity|]. split; [exact FF|]. split.
        -- intros Y. destruct (FB Y) as [Z1 Z2]. destruct (look t (t_e_out data)), (look t (t_mu_out data)); try contradiction. split; discriminate.
        -- intros Y. destruct (FC Y) as (l & LL & LF). rewrite LL. eauto.
Qed.
Lemma data_again self data q : t_kts data = [q] -> In (kelvin q) (t_temperatures self) -> add_data self data = Some self.
Proof. intros K I. unfold add_data. unfold t_temperatures at 1. rewrite K. cbn [map hd_error]. apply mem_iff in I. now rewrite I. Qed.
Lemma data_other self data q : t_kts data = [q] -> ~ In (kelvin q) (t_temperatures self) -> t_name data <> t_name self -> add_data self data = None.
Proof. intros K I N. unfold add_data. unfold t_temperatures at 1. rewrite K. cbn [map hd_error]. apply mem_not in I. rewrite I. apply String.eqb_neq in N. now rewrite N. Qed.

(** ** Failures *)
Lemma write_all_none {A} (f : A -> option node) k a : f a = None -> forall l n, In (k, a) l -> write_all f l n = None.
Proof.
  intros E. induction l as [|[k' a'] l IH]; intros n I; [contradiction|]. cbn [write_all]. destruct I as [[= -> ->]|I]; [now rewrite E|]. destruct (f a') as [c|]; [|reflexivity]. destruct (create k' c n) as [n'|]; [|reflexivity]. now apply IH.
Qed.
Lemma incomplete d mode t : t_mode d = Some mode -> In t (t_temperatures d) -> at_node d mode t = None -> thermal_node d = None.
Proof.
  intros M I E. unfold thermal_node. rewrite M. destruct (write_all _ _ _) as [k|]; [|reflexivity]. destruct (create "kTs" k _) as [g|]; [|reflexivity]. rewrite write_temperatures_all. apply (write_all_none _ t t E). apply in_map_iff. eauto.
Qed.
Lemma no_export d f : thermal_node d = None -> t_export d f = None.
Proof. intros E. unfold t_export. rewrite E. now destruct (look _ _). Qed.
Lemma elastic_missing d mode t : t_elastic d <> [] -> (look t (t_elastic d) = None \/ (t_elastic_mu d <> [] /\ look t (t_elastic_mu d) = None)) -> at_node d mode t = None.
Proof.
  intros N H. unfold at_node, write_elastic. destruct (t_elastic d) as [|x l] eqn:E; [contradiction|]. rewrite <- E in *. destruct H as [-> |[M L]]; [reflexivity|]. destruct (look t (t_elastic d)) as [e|]; [|reflexivity].
  destruct (elastic_node e) as [n|]; [|reflexivity]. unfold group at 1. cbn [create look]. destruct (t_elastic_mu d) as [|m lm] eqn:EM; [contradiction|]. rewrite <- EM in *. now rewrite L.
Qed.
Lemma inelastic_missing d mode t : t_inelastic d <> [] -> (in_bins (Some mode) = true /\ look t (t_e_out d) = None \/ mode = "continuous" /\ look t (t_dist d) = None) -> at_node d mode t = None.
Proof.
  intros N H. unfold at_node. destruct (write_elastic d t group) as [g|]; [|reflexivity]. unfold write_inelastic. destruct (t_inelastic d) as [|x l] eqn:E; [contradiction|]. rewrite <- E. destruct (look t (t_inelastic d)) as [f|]; [|reflexivity].
  destruct (fn_node f) as [n|]; [|reflexivity]. unfold group. cbn [create look]. destruct H as [[-> ->] | [-> ->]]; reflexivity.
Qed.
Lemma joined_from {A} t (self data new : list (string * A)) : joined t self data new -> look t data <> None -> look t new = look t data.
Proof. intros J H. rewrite J, String.eqb_refl. destruct (look t data); [reflexivity|contradiction]. Qed.
Lemma look_not_nil {A} k (l : list (string * A)) : look k l <> None -> l <> [].
Proof. now destruct l. Qed.
Lemma mixed_fails a b s s' qa qb da db d : table_says a s -> table_says b s' -> table_read s qa da -> table_read s' qb db -> kelvin (qa * ev)%Qc <> kelvin (qb * ev)%Qc -> mixed s s' ->
  with_temperature (kelvin (qb * ev)%Qc) da db d -> thermal_node d = None.
Proof.
  intros _ _ (KA & IA & OA & EA) (KB & IB & OB & EB) NT MX (_ & _ & M & _ & KT & JE & JM & JI & JO & _ & JD). set (ta := kelvin (qa * ev)%Qc) in *. set (tb := kelvin (qb * ev)%Qc) in *.
  assert (T : t_temperatures d = [ta; tb]) by (unfold t_temperatures; rewrite KT, KA, KB; reflexivity). assert (Ta : In ta (t_temperatures d)) by (rewrite T; now left). assert (Tb : In tb (t_temperatures d)) by (rewrite T; right; now left). clear T KT.
  assert (Nab : String.eqb ta tb = false) by now apply String.eqb_neq. assert (Nba : String.eqb tb ta = false) by (apply String.eqb_neq; auto).
  assert (MD : exists mode, t_mode d = Some mode) by (rewrite M; destruct (o_out s); destruct OA as [-> _]; eauto). destruct MD as [mode MD].
  pose proof (JE ta) as Ea. pose proof (JE tb) as Eb. pose proof (JM ta) as Ma. pose proof (JM tb) as Mb. pose proof (JI ta) as Ia. rewrite Nab in Ea, Ma, Ia. rewrite String.eqb_refl in Eb, Mb.
  destruct MX as [MX|MX].
  - assert (G : exists t, In t [ta; tb] /\ t_elastic d <> [] /\ (look t (t_elastic d) = None \/ (t_elastic_mu d <> [] /\ look t (t_elastic_mu d) = None))).
    { destruct (o_el s) as [|x f|es xs n mu], (o_el s') as [|x' f'|es' xs' n' mu']; cbn [kind] in MX; try congruence; cbn [el_read] in EA, EB; destruct EA as [EA1 EA2], EB as [EB1 EB2];
        rewrite EA1, EB1 in *; rewrite EA2, EB2 in *; cbn [look] in *; rewrite ?String.eqb_refl, ?Nab, ?Nba in *.
      - exists ta. split; [now left|]. split; [eapply look_not_nil; rewrite Eb; discriminate | now left].
      - exists ta. split; [now left|]. split; [eapply look_not_nil; rewrite Eb; discriminate | now left].
      - exists tb. split; [right; now left|]. split; [eapply look_not_nil; rewrite Ea; discriminate | now left].
      - exists ta. split; [now left|]. split; [eapply look_not_nil; rewrite Ea; discriminate | right; split; [eapply look_not_nil; rewrite Mb; discriminate | exact Ma]].
      - exists tb. split; [right; now left|]. split; [eapply look_not_nil; rewrite Ea; discriminate | now left].
      - exists tb. split; [right; now left|]. split; [eapply look_not_nil; rewrite Ea; discriminate | right; split; [eapply look_not_nil; rewrite Ma; discriminate | exact Mb]]. }
    destruct G as (t & I & G1 & G2). apply (incomplete d mode t MD); [destruct I as [<-|[<-|[]]]; assumption | now apply elastic_missing].
  - assert (NI : t_inelastic d <> []). { eapply look_not_nil. rewrite Ia, IA. cbn [look]. rewrite String.eqb_refl. discriminate. }
    apply (incomplete d mode tb MD Tb). apply inelastic_missing; [exact NI|]. pose proof (JO tb) as Ob. pose proof (JD tb) as Db. rewrite String.eqb_refl in Ob, Db. rewrite M in MD.
    destruct (o_out s) as [sk n m rows|m sp], (o_out s') as [sk' n' m' rows'|m' sp']; cbn [spectral] in MX; try congruence; cbn [out_read] in OA, OB.
    + destruct OA as (MA & EA' & _ & _), OB as (_ & EB' & _). left. rewrite EA', EB' in Ob. cbn [look] in Ob. rewrite Nba in Ob. split; [|exact Ob]. apply in_bins_mode. rewrite MA in MD. injection MD as <-. destruct sk; auto.
    + destruct OA as (MA & _ & _ & ds & mus & DA & _), OB as (_ & _ & _ & DB). right. rewrite DA, DB in Db. cbn [look] in Db. rewrite Nba in Db. split; [congruence | exact Db].
Qed.

(** ** Libraries *)
Definition nothing_at (t : string) (d : thermal) : Prop :=
  look t (t_elastic d) = None /\ look t (t_elastic_mu d) = None /\ look t (t_inelastic d) = None /\ look t (t_e_out d) = None /\ look t (t_mu_out d) = None /\ look t (t_dist d) = None.
Definition owned (d : thermal) : Prop := forall t, ~ In t (t_temperatures d) -> nothing_at t d.
Lemma ace_owned close a name d : t_from_ace close a name = Some d -> t_kts d = [(a_temperature a * ev)%Qc] /\ owned d.
Proof.
  unfold t_from_ace. destruct (before_dot _) as [n|]; [|discriminate]. destruct (int_at _ _) as [k0|]; [|discriminate]. destruct (stretch _ _ k0) as [e|]; [|discriminate]. destruct (stretch _ (_ + k0) k0) as [xs|]; [|discriminate].
  set (t := kelvin (a_temperature a * EV_PER_MEV)%Qc).
  assert (G : forall (eo : list (string * list (list Qc))) mo (dd : list (string * law)), ((exists x y, eo = [(t, x)] /\ mo = [(t, y)] /\ dd = []) \/ (eo = [] /\ mo = [] /\ exists x, dd = [(t, x)])) ->
    match elastic_from_ace (a_arrays a) with
    | Some el => match loop add_nuclides (a_pairs a) [] with
                 | Some nuclides => Some (mkThermal (get_thermal_name close n) (a_awr a) [(a_temperature a * EV_PER_MEV)%Qc] (match el with Some (e, _) => [(t, e)] | None => [] end)
                     (match el with Some (_, Some mu) => [(t, mu)] | _ => [] end) [(t, linear (mega e) xs)] eo mo dd (secondary_mode (nxs (a_arrays a) 7)) nuclides)
                 | None => None end
    | None => None end = Some d -> t_kts d = [(a_temperature a * ev)%Qc] /\ owned d).
  { intros eo mo dd C. destruct (elastic_from_ace _) as [o|]; [|discriminate]. destruct (loop _ _ _) as [ns|]; [|discriminate]. intros H. apply some_inj in H. subst d. split; [reflexivity|]. intros k N.
    assert (K : String.eqb k t = false). { apply String.eqb_neq. intros ->. apply N. now left. }
    unfold nothing_at. cbn [t_elastic t_elastic_mu t_inelastic t_e_out t_mu_out t_dist].
    split; [destruct o as [[e0 m0]|]; cbn; now rewrite ?K|]. split; [destruct o as [[e0 [m0|]]|]; cbn; now rewrite ?K|]. split; [cbn; now rewrite K|].
    destruct C as [(x & y & -> & -> & ->)|(-> & -> & x & ->)]; cbn; rewrite ?K; auto. }
  destruct (in_bins _).
  - destruct (bins _ _ _ _ _) as [[x y]|]; [|discriminate]. apply G. left. eauto.
  - destruct (continuous _ _ _ _ _) as [x|]; [|discriminate]. apply G. right. eauto.
Qed.
Lemma joined_old {A} t (self data new : list (string * A)) k : joined t self data new -> k <> t -> look k new = look k self.
Proof. intros J N. rewrite J. apply String.eqb_neq in N. now rewrite N. Qed.
Lemma joined_new {A} t (self data new : list (string * A)) : joined t self data new -> look t self = None -> look t new = look t data.
Proof. intros J N. rewrite J, String.eqb_refl, N. now destruct (look t data). Qed.
Lemma alike_trans d d' d'' : alike d d' -> alike d d'' -> alike d' d''.
Proof. unfold alike. intros (A & B & C & D) (E & F & G & H). split; [congruence|]. tauto. Qed.
Lemma take_nil {A} t (data self : list (string * A)) : take_over t data self = [] -> self = [].
Proof. unfold take_over. destruct (look t data); [|auto]. destruct self as [|[k v] l]; [reflexivity|]. cbn. now destruct (String.eqb t k). Qed.
Lemma added_alike self data d : alike self data -> add_data self data = Some d -> alike self d.
Proof.
  intros (M & A & B & C) H. unfold add_data in H. destruct (hd_error _) as [t|]; [|discriminate]. destruct (mem _ _); [apply some_inj in H; subst; repeat split; auto|]. destruct (negb _); [discriminate|]. apply some_inj in H. subst d.
  assert (G : forall X (s e : list (string * X)), (s = [] <-> e = []) -> (s = [] <-> take_over t e s = [])).
  { intros X s e I. split; [intros ->; destruct I as [I _]; rewrite (I eq_refl); reflexivity | apply take_nil]. }
  unfold alike. cbn [t_mode t_elastic t_elastic_mu t_inelastic]. split; [reflexivity|]. auto.
Qed.
Lemma library close : forall tables d0 ds, Forall2 (fun a d => t_from_ace close a None = Some d /\ t_name d = t_name d0) tables ds -> owned d0 -> NoDup (t_temperatures d0 ++ flat_map t_temperatures ds) ->
  exists d, loop (fun d a => add_temperature_from_ace close d a None) tables d0 = Some d /\ t_name d = t_name d0 /\ t_awr d = t_awr d0 /\ t_mode d = t_mode d0 /\ t_nuclides d = t_nuclides d0 /\ t_kts d = t_kts d0 ++ flat_map t_kts ds /\ owned d /\
    (forall t, In t (t_temperatures d0) -> has_at t d0 d) /\ (forall x t, In x ds -> In t (t_temperatures x) -> has_at t x d) /\
    (thermal_fine d0 -> (forall x, In x ds -> alike d0 x /\ thermal_fine x) -> thermal_fine d).
Proof.
  intros tables. induction tables as [|a tables IH]; intros d0 ds F O N; inversion F as [|? x ? ds' [E NM] F']; subst.
  - exists d0. cbn. rewrite app_nil_r. repeat (split; [reflexivity || assumption|]). split; [intros t _; repeat split|]. split; [contradiction | auto].
  - cbn [loop]. unfold add_temperature_from_ace at 1. rewrite E. destruct (ace_owned _ _ _ _ E) as [K OX]. set (q := (a_temperature a * ev)%Qc) in *. cbn [flat_map] in N. assert (TX : t_temperatures x = [kelvin q]) by (unfold t_temperatures; now rewrite K). rewrite TX in N. cbn [app] in N.
    assert (NQ : ~ In (kelvin q) (t_temperatures d0)) by (intros I; apply NoDup_remove_2 in N; apply N, in_or_app; now left).
    destruct (data_added d0 x q K NQ NM) as (d1 & E1 & W & FI). rewrite E1. pose proof W as (W1 & W2 & W3 & W4 & W5 & J1 & J2 & J3 & J4 & J5 & J6).
    assert (T1 : t_temperatures d1 = t_temperatures d0 ++ [kelvin q]) by (unfold t_temperatures; now rewrite W5, map_app, K).
    assert (O1 : owned d1).
    { intros t NI. rewrite T1 in NI. assert (NE : t <> kelvin q) by (intros ->; apply NI, in_or_app; right; now left). destruct (O t) as (A1 & A2 & A3 & A4 & A5 & A6); [intros I; apply NI, in_or_app; now left|].
      unfold nothing_at. rewrite (joined_old _ _ _ _ _ J1 NE), (joined_old _ _ _ _ _ J2 NE), (joined_old _ _ _ _ _ J3 NE), (joined_old _ _ _ _ _ J4 NE), (joined_old _ _ _ _ _ J5 NE), (joined_old _ _ _ _ _ J6 NE). auto 10. }
    destruct (IH d1 ds') as (d & L & B1 & B2 & B3 & B4 & B5 & B6 & B7 & B8 & B9).
    + eapply Law_Proofs.F2_impl; [|exact F']. intros a' d' [H1 H2]. split; [exact H1 | congruence].
    + exact O1.
    + rewrite T1, <- app_assoc. exact N.
    + exists d. split; [exact L|]. split; [congruence|]. split; [congruence|]. split; [congruence|]. split; [congruence|]. split; [rewrite B5, W5, <- app_assoc; reflexivity|]. split; [exact B6|].
      split; [|split].
      * intros t I. assert (NE : t <> kelvin q) by (intros ->; contradiction). destruct (B7 t) as (A1 & A2 & A3 & A4 & A5 & A6); [rewrite T1; apply in_or_app; now left|].
        unfold has_at. rewrite A1, A2, A3, A4, A5, A6. rewrite (joined_old _ _ _ _ _ J1 NE), (joined_old _ _ _ _ _ J2 NE), (joined_old _ _ _ _ _ J3 NE), (joined_old _ _ _ _ _ J4 NE), (joined_old _ _ _ _ _ J5 NE), (joined_old _ _ _ _ _ J6 NE). repeat split.
      * intros y t [<-|I] IT; [|now apply B8]. rewrite TX in IT. destruct IT as [<-|[]]. destruct (B7 (kelvin q)) as (A1 & A2 & A3 & A4 & A5 & A6); [rewrite T1; apply in_or_app; right; now left|].
        destruct (O _ NQ) as (Z1 & Z2 & Z3 & Z4 & Z5 & Z6). unfold has_at. rewrite A1, A2, A3, A4, A5, A6.
        rewrite (joined_new _ _ _ _ J1 Z1), (joined_new _ _ _ _ J2 Z2), (joined_new _ _ _ _ J3 Z3), (joined_new _ _ _ _ J4 Z4), (joined_new _ _ _ _ J5 Z5), (joined_new _ _ _ _ J6 Z6). repeat split.
      * intros F0 FA. destruct (FA x (or_introl eq_refl)) as [AX FX]. apply B9; [now apply FI|]. intros y I. destruct (FA y (or_intror I)) as [AY FY]. split; [|exact FY]. apply (alike_trans d0); [now apply (added_alike d0 x d1) | exact AY].
Qed.

(** ** Names of tables *)
Lemma cut_dot_iff s : forall a b, cut_dot s = (a, Some b) <-> s = String.append a (String "." b) /\ dotless a.
Proof.
  induction s as [|c s IH]; intros a b; cbn [cut_dot].
  - split; [discriminate|]. intros [E _]. destruct a; discriminate.
  - destruct (Ascii.eqb_spec c ".") as [->|N].
    + split; [intros E; injection E as <- <-; now split|]. intros [E D]. destruct a as [|x a]; cbn in E; [injection E as <-; reflexivity|]. injection E as <- _. cbn [dotless] in D. now destruct D as [D _].
    + destruct (cut_dot s) as [a0 b0]. split.
      * intros E. injection E as <- ->. destruct (proj1 (IH a0 b) eq_refl) as [-> D]. split; [reflexivity|]. now split.
      * intros [E D]. destruct a as [|x a]; cbn in E; [injection E as -> _; congruence|]. injection E as <- ->. destruct D as [_ D]. pose proof (proj2 (IH a b) (conj eq_refl D)) as X. injection X as -> ->. reflexivity.
Qed.
Lemma cut_dot_none s : snd (cut_dot s) = None <-> dotless s.
Proof.
  induction s as [|c s IH]; cbn [cut_dot dotless]; [now split|]. destruct (Ascii.eqb_spec c ".") as [->|N]; [split; [discriminate|now intros [H _]]|].
  destruct (cut_dot s) as [a b]. cbn [snd] in *. rewrite IH. tauto.
Qed.
Lemma before_dot_iff s n : before_dot s = Some n <-> called s n.
Proof.
  unfold before_dot, called. destruct (cut_dot s) as [a [b|]] eqn:E.
  - destruct (snd (cut_dot b)) eqn:F.
    + split; [discriminate|]. intros (r & Es & D1 & D2). apply cut_dot_none in D2. pose proof (proj2 (cut_dot_iff s n r) (conj Es D1)) as X. rewrite E in X. injection X as -> ->. congruence.
    + apply cut_dot_none in F. apply cut_dot_iff in E as [-> D]. split; [intros X; injection X as <-; eauto|]. intros (r & Es & D1 & D2). f_equal.
      pose proof (proj2 (cut_dot_iff _ a b) (conj eq_refl D)) as X1. pose proof (proj2 (cut_dot_iff _ n r) (conj Es D1)) as X2. rewrite X1 in X2. now injection X2.
  - split; [discriminate|]. intros (r & Es & D1 & _). pose proof (proj2 (cut_dot_iff s n r) (conj Es D1)). congruence.
Qed.
Lemma table_refused close a name d : t_from_ace close a name = Some d -> (exists n, called (a_name a) n) /\ (jxs (a_arrays a) 4 <> 0 -> nxs (a_arrays a) 5 = 4 -> nxs (a_arrays a) 6 = -1).
Proof.
  unfold t_from_ace. destruct (before_dot (a_name a)) as [n|] eqn:B; [|discriminate]. intros H. split; [exists n; now apply before_dot_iff|]. intros J N.
  destruct (elastic_from_ace (a_arrays a)) as [o|] eqn:El.
  - unfold elastic_from_ace in El. apply Z.eqb_neq in J. rewrite J, N in El. change (4 =? 4) with true in El. cbv iota in El. destruct (int_at _ _); [|discriminate]. destruct (stretch _ _ _); [|discriminate]. destruct (stretch _ _ _); [|discriminate].
    destruct (Z.eqb_spec (nxs (a_arrays a) 6 + 1) 0); [lia|discriminate].
  - exfalso. repeat match type of H with match ?x with _ => _ end = _ => destruct x; try discriminate end.
Qed.
