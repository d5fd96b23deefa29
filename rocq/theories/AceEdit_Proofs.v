(** Proofs about the ACE editor model. *)
From Verif Require Import Num Chi_Model AceEdit_Model AceEdit_Spec.
From Coq Require Import Permutation.
Local Open Scope Z_scope.

Ltac splits := repeat match goal with |- _ /\ _ => split end.

(** * Small facts about dictionaries *)
Section Dict.
Context {A : Type}.
Implicit Types (l : list (Z * A)).

Lemma lookup_In k v l : lookup k l = Some v -> In (k, v) l.
Proof.
  induction l as [|[k' v'] r IH]; cbn [lookup]; [discriminate|].
  destruct (Z.eqb_spec k k') as [->|]; intros H; [injection H as ->; now left | right; auto].
Qed.

Lemma lookup_None k l : lookup k l = None <-> ~ In k (map fst l).
Proof.
  induction l as [|[k' v'] r IH]; cbn [lookup map fst In]; [tauto|].
  destruct (Z.eqb_spec k k') as [->|n]; [split; [discriminate|tauto]|].
  rewrite IH. split; intros H; [intros [<-|?]; [now apply n|tauto] | tauto].
Qed.

Lemma lookup_Some_key k v l : lookup k l = Some v -> In k (map fst l).
Proof. intros H. apply lookup_In in H. apply (in_map fst) in H. exact H. Qed.

Lemma key_lookup k l : In k (map fst l) -> exists v, lookup k l = Some v.
Proof.
  intros H. destruct (lookup k l) as [v|] eqn:E; [now exists v|].
  apply lookup_None in E. contradiction.
Qed.

Lemma replace_keys k v l : map fst (replace k v l) = map fst l.
Proof.
  induction l as [|[k' v'] r IH]; cbn [replace map fst]; [reflexivity|].
  destruct (Z.eqb k k'); cbn [map fst]; congruence.
Qed.

Lemma lookup_replace_eq k v l : In k (map fst l) -> lookup k (replace k v l) = Some v.
Proof.
  induction l as [|[k' v'] r IH]; cbn [replace map fst In lookup]; [tauto|].
  destruct (Z.eqb_spec k k') as [->|n]; cbn [lookup].
  - now rewrite Z.eqb_refl.
  - intros [H|H]; [congruence|]. destruct (Z.eqb_spec k k'); [congruence|auto].
Qed.

Lemma lookup_replace_ne k k' v l : k <> k' -> lookup k (replace k' v l) = lookup k l.
Proof.
  intros Hn. induction l as [|[k2 v2] r IH]; cbn [replace lookup]; [reflexivity|].
  destruct (Z.eqb_spec k' k2) as [->|n]; cbn [lookup].
  - destruct (Z.eqb_spec k k2); [congruence|reflexivity].
  - destruct (Z.eqb_spec k k2); [reflexivity|exact IH].
Qed.

Lemma lookup_app k l l2 :
  lookup k (l ++ l2) = match lookup k l with Some v => Some v | None => lookup k l2 end.
Proof.
  induction l as [|[k' v'] r IH]; cbn [lookup app]; [reflexivity|].
  destruct (Z.eqb k k'); auto.
Qed.

Lemma replace_same k v l : lookup k l = Some v -> replace k v l = l.
Proof.
  induction l as [|[k' v'] r IH]; cbn [replace lookup]; [reflexivity|].
  destruct (Z.eqb_spec k k') as [->|n]; intros H; [congruence|]. now rewrite IH.
Qed.

Lemma dict_ext l l2 :
  NoDup (map fst l) -> map fst l = map fst l2 ->
  (forall k, lookup k l = lookup k l2) -> l = l2.
Proof.
  revert l2. induction l as [|[k v] r IH]; intros [|[k2 v2] r2] Hnd Hk Hl;
    cbn [map fst] in *; try discriminate; [reflexivity|].
  injection Hk as <- Hk. inversion Hnd as [|? ? Hni Hnd']; subst.
  pose proof (Hl k) as H0. cbn [lookup] in H0. rewrite Z.eqb_refl in H0.
  injection H0 as <-. f_equal. apply IH; auto.
  intros k'. specialize (Hl k'). cbn [lookup] in Hl.
  destruct (Z.eqb_spec k' k) as [Heq|_]; [rewrite Heq|exact Hl].
  assert (E1 : lookup k r = None) by now apply lookup_None.
  assert (E2 : lookup k r2 = None) by (apply lookup_None; now rewrite <- Hk).
  congruence.
Qed.
End Dict.

Lemma mem_In k l : mem k l = true <-> In k l.
Proof.
  unfold mem. rewrite existsb_exists. split.
  - intros (x & Hx & E). apply Z.eqb_eq in E. now subst.
  - intros H. exists k. split; [exact H|apply Z.eqb_refl].
Qed.
Lemma mem_nIn k l : mem k l = false <-> ~ In k l.
Proof. rewrite <- not_true_iff_false, mem_In. tauto. Qed.

Lemma set_add_In k k' l : In k (set_add k' l) <-> k = k' \/ In k l.
Proof.
  unfold set_add. destruct (mem k' l) eqn:E.
  - apply mem_In in E. split; [tauto|]. intros [->|?]; auto.
  - rewrite in_app_iff. cbn [In]. intuition congruence.
Qed.
Lemma set_add_same k l : In k l -> set_add k l = l.
Proof. intros H. apply mem_In in H. unfold set_add. now rewrite H. Qed.
Lemma set_add_twice k l : set_add k (set_add k l) = set_add k l.
Proof. apply set_add_same, set_add_In. now left. Qed.

Lemma present_In m a b : In m (present a b) <-> In m a /\ In m b.
Proof. unfold present. rewrite filter_In, nodup_In, mem_In. tauto. Qed.

Lemma present_NoDup a b : NoDup (present a b).
Proof. unfold present. apply NoDup_filter, NoDup_nodup. Qed.

(** * Constituent lists *)
Lemma zrange_In a b m : In m (zrange a b) <-> a <= m < b.
Proof.
  unfold zrange. rewrite in_map_iff. split.
  - intros (i & <- & Hi). apply in_seq in Hi. lia.
  - intros H. exists (Z.to_nat (m - a)). split; [lia|]. apply in_seq. lia.
Qed.

Lemma part_ofb_iff sm m : part_ofb sm m = true <-> part_of sm m.
Proof.
  unfold part_ofb, part_of. cbv zeta.
  repeat rewrite ?orb_true_iff, ?andb_true_iff, ?Z.eqb_eq, ?Z.leb_le. tauto.
Qed.

(** Every rule of the pass uses exactly the specified constituents. *)
Lemma rule_parts sm parts : In (sm, parts) sum_list ->
  forall m, In m parts <-> part_of sm m.
Proof.
  unfold sum_list. cbn [In].
  intros H m.
  repeat (destruct H as [H|H]; [injection H as <- <-; unfold part_of, mt_1, mt_27, mt_3, mt_4, mt_16,
     mt_18, mt_101, mt_103, mt_104, mt_105, mt_106, mt_107;
     repeat (rewrite in_app_iff || rewrite zrange_In || cbn [In]); lia|]).
  destruct H.
Qed.

Lemma part_of_rule sm m : part_of sm m -> exists parts, In (sm, parts) sum_list.
Proof.
  unfold part_of, sum_list. intros H.
  assert (In sm (map fst sum_list)) as Hin by (cbn; lia).
  apply in_map_iff in Hin as ([s p] & <- & Hp). exists p. exact Hp.
Qed.

(** A rule never uses a redundant reaction processed at or after it. *)
Fixpoint wellordered (rules : list (Z * list Z)) : Prop :=
  match rules with
  | [] => True
  | (sm, parts) :: rest =>
      ~ In sm parts /\ ~ In sm (map fst rest) /\
      (forall m, In m (map fst rest) -> ~ In m parts) /\ wellordered rest
  end.

Fixpoint wellorderedb (rules : list (Z * list Z)) : bool :=
  match rules with
  | [] => true
  | (sm, parts) :: rest =>
      negb (mem sm parts) && negb (mem sm (map fst rest)) &&
      forallb (fun m => negb (mem m parts)) (map fst rest) && wellorderedb rest
  end.

Lemma wellorderedb_ok rules : wellorderedb rules = true -> wellordered rules.
Proof.
  induction rules as [|[sm parts] rest IH]; cbn [wellordered wellorderedb]; [tauto|].
  rewrite !andb_true_iff, !negb_true_iff, !mem_nIn, forallb_forall.
  intros (((H1 & H2) & H3) & H4). repeat split; auto.
  intros m Hm. apply H3 in Hm. now rewrite negb_true_iff, mem_nIn in Hm.
Qed.

Lemma sum_list_wellordered : wellordered sum_list.
Proof. apply wellorderedb_ok. vm_compute. reflexivity. Qed.

(** * Element-wise arithmetic *)
Lemma zipw_map f g h (es : list Qc) :
  zipw f (map g es) (map h es) = map (fun e => f (g e) (h e)) es.
Proof. induction es as [|e r IH]; cbn [map zipw]; congruence. Qed.

Lemma col_sum_map (fs : list (Qc -> Qc)) (es : list Qc) :
  col_sum (length es) (map (fun f => map f es) fs)
  = map (fun e => qsum (map (fun f => f e) fs)) es.
Proof.
  unfold col_sum. induction fs as [|f r IH]; cbn [map fold_right].
  - induction es as [|e es IH]; cbn [length repeat map]; [reflexivity|]. now rewrite IH.
  - rewrite IH, zipw_map. reflexivity.
Qed.

Lemma all_some_map {A B} (f : A -> option B) (g : A -> B) l :
  (forall a, In a l -> f a = Some (g a)) -> all_some (map f l) = Some (map g l).
Proof.
  induction l as [|a r IH]; cbn [map all_some]; intros H; [reflexivity|].
  rewrite H by now left. rewrite IH; [reflexivity|]. intros; apply H; now right.
Qed.

Lemma qsum_map_sub {A} (f g : A -> Qc) l :
  qsum (map (fun a => (f a - g a)%Qc) l) = (qsum (map f l) - qsum (map g l))%Qc.
Proof.
  induction l as [|a r IH]; cbn [map]; rewrite ?qsum_nil, ?qsum_cons; [ring|]. rewrite IH. ring.
Qed.

Lemma qsum_map_ext {A} (f g : A -> Qc) l :
  (forall a, In a l -> f a = g a) -> qsum (map f l) = qsum (map g l).
Proof. intros H. f_equal. now apply map_ext_in. Qed.

Lemma qsum_perm l l' : Permutation l l' -> qsum l = qsum l'.
Proof. induction 1; rewrite ?qsum_cons in *; try rewrite IHPermutation; try ring; congruence. Qed.

(** Dropping zero terms. *)
Lemma qsum_filter_zero {A} (f : A -> Qc) (p : A -> bool) l :
  (forall a, In a l -> p a = false -> f a = 0%Qc) ->
  qsum (map f (filter p l)) = qsum (map f l).
Proof.
  induction l as [|a r IH]; cbn [filter map]; intros H; [reflexivity|].
  destruct (p a) eqn:E; cbn [map]; rewrite !qsum_cons, IH; auto; try (intros; apply H; auto; now right).
  rewrite (H a) by (auto; now left). ring.
Qed.

(** * State views *)
Definition tabm (s : editor) (m : Z) : option tab := lookup m (reactions (cur s)).

(** Reaction [m] replaced: the state a successful [set_sigma] leaves. *)
Definition upd (s : editor) (m : Z) (rx : tab) (ys : list Qc) : editor :=
  {| cur := {| reactions := replace m (set_y rx ys) (reactions (cur s));
               nu := nu (cur s); chi := chi (cur s) |};
     orig := orig s; all_mts := all_mts s;
     original_sigma := record_original s m (VFlat (ty rx));
     adjusted := set_add m (adjusted s) |}.

(** Invariant of every reachable editor. *)
Record Inv (t : table) (s : editor) : Prop := {
  inv_orig : orig s = t;
  inv_all : all_mts s = all_mts (open_editor t);
  inv_keys : map fst (reactions (cur s)) = map fst (reactions t);
  inv_shape : forall m rx, tabm s m = Some rx ->
     exists r0, lookup m (reactions t) = Some r0 /\ tx rx = tx r0 /\ length (ty rx) = length (tx rx);
  inv_unadj : forall m, ~ In m (adjusted s) -> tabm s m = lookup m (reactions t);
  inv_adj : forall m, In m (adjusted s) -> exists v, lookup m (original_sigma s) = Some v;
  inv_adj_all : forall m, In m (adjusted s) -> In m (all_mts s) \/ m = 452 \/ m = 1018 }.

Lemma keys_in_all t m : In m (map fst (reactions t)) -> In m (all_mts (open_editor t)).
Proof. intros H. cbn. apply in_or_app. now left. Qed.

Lemma all_in_keys t m : m <> 452 -> m <> 1018 ->
  In m (all_mts (open_editor t)) -> In m (map fst (reactions t)).
Proof.
  intros H1 H2. cbn. rewrite in_app_iff. intros [H|H]; [exact H|].
  destruct (mem 18 _); cbn in H; lia.
Qed.

Lemma wf_lookup t m rx : wf_table t -> lookup m (reactions t) = Some rx ->
  m <> 452 /\ m <> 1018 /\ tx rx <> [] /\ length (ty rx) = length (tx rx).
Proof. intros [_ H] E. apply (H m rx). now apply lookup_In. Qed.

Lemma Inv_open t : wf_table t -> Inv t (open_editor t).
Proof.
  intros Hwf. constructor; cbn; auto; try tauto.
  - intros m rx E. exists rx. split; [exact E|]. split; [reflexivity|].
    destruct (wf_lookup _ _ _ Hwf E) as (_ & _ & _ & H). exact H.
Qed.

Lemma set_sigma_flat s m ys rx :
  m <> 452 -> m <> 1018 -> tabm s m = Some rx -> length ys = length (tx rx) ->
  set_sigma s m (VFlat ys) = (upd s m rx ys, true).
Proof.
  unfold tabm. intros H1 H2 E L. unfold set_sigma, get_energy, get_sigma.
  apply Z.eqb_neq in H1, H2. rewrite H1, H2, E. cbn [option_map].
  rewrite L, Nat.eqb_refl. cbn [negb]. reflexivity.
Qed.

(** Outcomes of a flat [set_sigma]: rejected without effect, nu-bar, or a
    reaction update. *)
Lemma set_sigma_flat_cases s m ys :
  set_sigma s m (VFlat ys) = (s, false) \/
  (m = 452 /\ exists n, nu (cur s) = Some n /\ length ys = length (tx n) /\
     set_sigma s m (VFlat ys) =
     ({| cur := {| reactions := reactions (cur s); nu := Some (set_y n ys); chi := chi (cur s) |};
         orig := orig s; all_mts := all_mts s;
         original_sigma := record_original s m (VFlat (ty n));
         adjusted := set_add m (adjusted s) |}, true)) \/
  (m <> 452 /\ m <> 1018 /\ exists rx, tabm s m = Some rx /\ length ys = length (tx rx) /\
     set_sigma s m (VFlat ys) = (upd s m rx ys, true)).
Proof.
  destruct (Z.eq_dec m 1018) as [->|Hc]; [left; reflexivity|].
  destruct (Z.eq_dec m 452) as [->|Hn].
  - unfold set_sigma, get_energy, get_sigma. cbn -[length Nat.eqb record_original set_add].
    destruct (nu (cur s)) as [n|]; cbn -[length Nat.eqb record_original set_add]; [|now left].
    destruct (Nat.eqb_spec (length ys) (length (tx n))) as [L|L];
      cbn -[length Nat.eqb record_original set_add]; [|now left].
    right; left. split; [reflexivity|]. exists n. auto.
  - destruct (tabm s m) as [rx|] eqn:E.
    + destruct (Nat.eq_dec (length ys) (length (tx rx))) as [L|L].
      * right; right. repeat split; auto. exists rx. repeat split; auto. now apply set_sigma_flat.
      * left. unfold set_sigma, get_energy, tabm in *. apply Z.eqb_neq in Hn, Hc. rewrite Hn, Hc, E.
        cbn [option_map]. apply Nat.eqb_neq in L. rewrite L. reflexivity.
    + left. unfold set_sigma, get_energy, tabm in *. apply Z.eqb_neq in Hn, Hc. rewrite Hn, Hc, E.
      reflexivity.
Qed.

(** Outcomes of a chi [set_sigma]. *)
Lemma set_sigma_chi_cases s m pdfs :
  set_sigma s m (VChi pdfs) = (s, false) \/
  (m = 1018 /\ In 18 (all_mts s) /\ exists ds, chi (cur s) = Some ds /\
     length pdfs = length ds /\
     set_sigma s m (VChi pdfs) =
     ({| cur := {| reactions := reactions (cur s); nu := nu (cur s);
                   chi := Some (fst (set_chi ds pdfs)) |};
         orig := orig s; all_mts := all_mts s;
         original_sigma := record_original s m (VChi (map dp ds));
         adjusted := if snd (set_chi ds pdfs) then set_add m (adjusted s) else adjusted s |},
      snd (set_chi ds pdfs))).
Proof.
  unfold set_sigma, chi_energies, get_sigma_chi.
  destruct (Z.eqb_spec m 1018) as [->|]; cbn [negb]; [|now left].
  destruct (mem 18 (all_mts s)) eqn:E; [|now left].
  destruct (chi (cur s)) as [ds|]; cbn [option_map]; [|now left].
  destruct (Nat.eqb_spec (length pdfs) (length (map dx ds))) as [L|L]; cbn [negb]; [|now left].
  right. split; [reflexivity|]. apply mem_In in E. split; [exact E|]. exists ds.
  rewrite map_length in L. repeat split; auto.
  destruct (set_chi ds pdfs) as [ds' ok]. reflexivity.
Qed.

Lemma lookup_record_eq s m v : exists v', lookup m (record_original s m v) = Some v'.
Proof.
  unfold record_original. destruct (lookup m (original_sigma s)) as [v0|] eqn:E; [now exists v0|].
  rewrite lookup_app, E. cbn. rewrite Z.eqb_refl. now exists v.
Qed.
Lemma lookup_record_keep s m v m' v' :
  lookup m' (original_sigma s) = Some v' -> lookup m' (record_original s m v) = Some v'.
Proof.
  unfold record_original. destruct (lookup m (original_sigma s)) as [v0|]; [auto|].
  intros H. now rewrite lookup_app, H.
Qed.

Lemma tabm_upd_eq s m rx ys : tabm s m = Some rx -> tabm (upd s m rx ys) m = Some (set_y rx ys).
Proof. intros E. unfold tabm, upd. cbn. apply lookup_replace_eq. now apply lookup_Some_key in E. Qed.
Lemma tabm_upd_ne s m rx ys m' : m' <> m -> tabm (upd s m rx ys) m' = tabm s m'.
Proof. intros H. unfold tabm, upd. cbn. now apply lookup_replace_ne. Qed.

Lemma Inv_upd t s m rx ys : Inv t s -> tabm s m = Some rx -> length ys = length (tx rx) ->
  Inv t (upd s m rx ys).
Proof.
  intros I E L. constructor; cbn [upd orig all_mts cur reactions adjusted original_sigma].
  - apply (inv_orig _ _ I).
  - apply (inv_all _ _ I).
  - rewrite replace_keys. apply (inv_keys _ _ I).
  - intros m' rx' E'. destruct (Z.eq_dec m' m) as [->|Hn].
    + rewrite (tabm_upd_eq _ _ _ _ E) in E'. injection E' as <-. cbn.
      destruct (inv_shape _ _ I m rx E) as (r0 & H1 & H2 & _). exists r0. auto.
    + rewrite tabm_upd_ne in E' by auto. now apply (inv_shape _ _ I).
  - intros m' Hn. rewrite set_add_In in Hn. rewrite tabm_upd_ne by tauto.
    apply (inv_unadj _ _ I). tauto.
  - intros m' H. apply set_add_In in H as [->|H]; [apply lookup_record_eq|].
    destruct (inv_adj _ _ I m' H) as [v Hv]. exists v. now apply lookup_record_keep.
  - intros m' H. apply set_add_In in H as [->|H]; [|apply (inv_adj_all _ _ I m' H)].
    left. rewrite (inv_all _ _ I). apply keys_in_all. rewrite <- (inv_keys _ _ I).
    now apply lookup_Some_key in E.
Qed.

Lemma Inv_set_sigma t s m v : Inv t s -> Inv t (fst (set_sigma s m v)).
Proof.
  intros I. destruct v as [ys|pdfs].
  - destruct (set_sigma_flat_cases s m ys) as [->|[(-> & n & En & L & ->)|(H1 & H2 & rx & E & L & ->)]];
      [exact I| |now apply Inv_upd].
    destruct I as [I1 I2 I3 I4 I5 I6 I7].
    constructor; cbn [fst orig all_mts cur reactions adjusted original_sigma]; auto.
    + intros m' H. apply I5. rewrite set_add_In in H. tauto.
    + intros m' H. apply set_add_In in H as [->|H]; [apply lookup_record_eq|].
      destruct (I6 m' H) as [v Hv]. exists v. now apply lookup_record_keep.
    + intros m' H. apply set_add_In in H as [->|H]; auto.
  - destruct (set_sigma_chi_cases s m pdfs) as [->|(-> & H18 & ds & E & L & ->)]; [exact I|].
    destruct I as [I1 I2 I3 I4 I5 I6 I7].
    constructor; cbn [fst orig all_mts cur reactions adjusted original_sigma]; auto.
    + intros m' H. apply I5. destruct (snd _); [rewrite set_add_In in H|]; tauto.
    + intros m' H. destruct (snd _); [apply set_add_In in H as [->|H]; [apply lookup_record_eq|]|];
        destruct (I6 m' H) as [v Hv]; exists v; now apply lookup_record_keep.
    + intros m' H. destruct (snd _); [apply set_add_In in H as [->|H]|]; auto.
Qed.

(** * One rule *)

(** What the rule for [sm] with edited present constituents [adj] writes. *)
Definition newval (t : table) (s : editor) (sm : Z) (adj : list Z) (e : Qc) : Qc :=
  let at_ (l : option tab) := match l with Some r => tab_at r e | None => 0%Qc end in
  (at_ (lookup sm (reactions t))
   + qsum (map (fun m => at_ (tabm s m) - at_ (lookup m (reactions t)))%Qc adj))%Qc.

Definition adj_of (s : editor) (parts : list Z) : list Z :=
  present (adjusted s) (present parts (all_mts s)).

Lemma adj_of_In s parts m :
  In m (adj_of s parts) <-> In m (adjusted s) /\ In m parts /\ In m (all_mts s).
Proof. unfold adj_of. rewrite !present_In. tauto. Qed.

Definition ordinary (parts : list Z) : Prop := ~ In 452 parts /\ ~ In 1018 parts.

Lemma rule_ordinary sm parts : In (sm, parts) sum_list ->
  ordinary parts /\ sm <> 452 /\ sm <> 1018.
Proof.
  intros H. split; [split; rewrite (rule_parts _ _ H); unfold part_of; lia|].
  apply (in_map fst) in H. cbn in H. lia.
Qed.

Lemma tab_call_some rx es : tx rx <> [] -> tab_call rx es = Some (map (tab_at rx) es).
Proof. unfold tab_call. destruct (tx rx); congruence. Qed.

Lemma Inv_tabm_nonempty t s m rx : wf_table t -> Inv t s -> tabm s m = Some rx -> tx rx <> [].
Proof.
  intros Hwf I E. destruct (inv_shape _ _ I m rx E) as (r0 & H & -> & _).
  destruct (wf_lookup _ _ _ Hwf H) as (_ & _ & H' & _). exact H'.
Qed.

Lemma key_tabm t s m : Inv t s -> In m (map fst (reactions t)) -> exists rx, tabm s m = Some rx.
Proof. intros I H. rewrite <- (inv_keys _ _ I) in H. now apply key_lookup in H. Qed.

Lemma Inv_all_key t s m : Inv t s -> m <> 452 -> m <> 1018 -> In m (all_mts s) ->
  In m (map fst (reactions t)).
Proof. intros I H1 H2 H. rewrite (inv_all _ _ I) in H. now apply all_in_keys in H. Qed.

Lemma sum_rule_cases t s sm parts :
  wf_table t -> Inv t s -> ordinary parts -> sm <> 452 -> sm <> 1018 ->
  (sum_rule s (sm, parts) = (s, true) /\
     (~ In sm (map fst (reactions t)) \/ adj_of s parts = [])) \/
  (exists rx, tabm s sm = Some rx /\ adj_of s parts <> [] /\
     sum_rule s (sm, parts) =
       (upd s sm rx (map (newval t s sm (adj_of s parts)) (tx rx)), true)).
Proof.
  intros Hwf I [Ho1 Ho2] Hs1 Hs2. unfold sum_rule.
  destruct (mem sm (all_mts s)) eqn:Em.
  2:{ left. split; [reflexivity|]. left. apply mem_nIn in Em. intros H. apply Em.
      rewrite (inv_all _ _ I). now apply keys_in_all. }
  apply mem_In in Em. pose proof (Inv_all_key _ _ _ I Hs1 Hs2 Em) as Hkey.
  destruct (key_tabm _ _ _ I Hkey) as [rx Erx].
  fold (adj_of s parts).
  destruct (present parts (all_mts s)) as [|p0 pr] eqn:Ep.
  { left. split; [reflexivity|]. right. unfold adj_of. rewrite Ep. reflexivity. }
  rewrite <- Ep. fold (adj_of s parts).
  destruct (adj_of s parts) as [|a0 ar] eqn:Ea; [left; auto|].
  rewrite <- Ea. right. exists rx. split; [exact Erx|]. split; [congruence|].
  assert (Hge : get_energy s sm = Some (tx rx)).
  { unfold get_energy. apply Z.eqb_neq in Hs1. rewrite Hs1. unfold tabm in Erx. now rewrite Erx. }
  rewrite Hge.
  set (es := tx rx). set (adj := adj_of s parts).
  set (at_ := fun (l : option tab) e => match l with Some r => tab_at r e | None => 0%Qc end).
  assert (Hadj : forall m, In m adj -> m <> 452 /\ exists r0 r1,
      lookup m (reactions t) = Some r0 /\ tabm s m = Some r1 /\ tx r0 <> [] /\ tx r1 <> []).
  { intros m Hm. apply adj_of_In in Hm as (H1 & H2 & H3).
    assert (m <> 452) by congruence. assert (m <> 1018) by congruence.
    split; [assumption|].
    assert (Hk : In m (map fst (reactions t))) by (eapply Inv_all_key; eauto).
    destruct (key_lookup _ _ Hk) as [r0 E0]. destruct (key_tabm _ _ _ I Hk) as [r1 E1].
    exists r0, r1. repeat split; auto.
    - destruct (wf_lookup _ _ _ Hwf E0) as (_ & _ & H' & _). exact H'.
    - eapply Inv_tabm_nonempty; eauto. }
  rewrite (all_some_map _ (fun m => map (at_ (lookup m (reactions t))) es)).
  2:{ intros m Hm. destruct (Hadj m Hm) as (Hn & r0 & r1 & E0 & E1 & N0 & N1).
      unfold get_sigma. apply Z.eqb_neq in Hn. rewrite Hn, (inv_orig _ _ I), E0.
      now rewrite tab_call_some. }
  rewrite (all_some_map _ (fun m => map (at_ (tabm s m)) es)).
  2:{ intros m Hm. destruct (Hadj m Hm) as (Hn & r0 & r1 & E0 & E1 & N0 & N1).
      unfold get_sigma. apply Z.eqb_neq in Hn. rewrite Hn. unfold tabm in E1. rewrite E1.
      unfold tabm. rewrite E1. now rewrite tab_call_some. }
  destruct (key_lookup _ _ Hkey) as [r0 E0].
  assert (Hs : get_sigma s sm (Some es) true = Some (map (at_ (lookup sm (reactions t))) es)).
  { unfold get_sigma. apply Z.eqb_neq in Hs1. rewrite Hs1, (inv_orig _ _ I), E0.
    apply tab_call_some. destruct (wf_lookup _ _ _ Hwf E0) as (_ & _ & H' & _). exact H'. }
  rewrite Hs.
  assert (Hcol : forall g : Z -> option tab,
     col_sum (length es) (map (fun m => map (at_ (g m)) es) adj)
     = map (fun e => qsum (map (fun m => at_ (g m) e) adj)) es).
  { intros g. pose proof (col_sum_map (map (fun m => at_ (g m)) adj) es) as H.
    rewrite map_map in H. rewrite H. apply map_ext. intros e. now rewrite map_map. }
  rewrite (Hcol (fun m => lookup m (reactions t))), (Hcol (fun m => tabm s m)).
  rewrite !zipw_map.
  rewrite (set_sigma_flat _ _ _ rx); auto.
  2:{ now rewrite map_length. }
  cbn [fst snd]. f_equal.
  unfold upd. cbn [cur orig all_mts original_sigma adjusted]. rewrite set_add_twice.
  assert (Hmap : map (fun e => (at_ (lookup sm (reactions t)) e -
       qsum (map (fun m => at_ (lookup m (reactions t)) e) adj) +
       qsum (map (fun m => at_ (tabm s m) e) adj))%Qc) es = map (newval t s sm adj) es).
  { apply map_ext. intros e. unfold newval. fold at_. cbv zeta.
    rewrite (qsum_map_sub (fun m => at_ (tabm s m) e) (fun m => at_ (lookup m (reactions t)) e)).
    unfold at_. ring. }
  rewrite Hmap. reflexivity.
Qed.

(** Frame and growth facts of a rule. *)
Lemma sum_rule_facts t s sm parts :
  wf_table t -> Inv t s -> ordinary parts -> sm <> 452 -> sm <> 1018 ->
  let s' := fst (sum_rule s (sm, parts)) in
  snd (sum_rule s (sm, parts)) = true /\ Inv t s' /\
  (forall m, m <> sm -> tabm s' m = tabm s m) /\
  (forall m, m <> sm -> (In m (adjusted s') <-> In m (adjusted s))) /\
  (forall m, In m (adjusted s) -> In m (adjusted s')) /\
  all_mts s' = all_mts s /\ nu (cur s') = nu (cur s) /\ chi (cur s') = chi (cur s).
Proof.
  intros Hwf I Ho H1 H2. cbv zeta.
  destruct (sum_rule_cases t s sm parts Hwf I Ho H1 H2) as [(-> & _)|(rx & E & _ & ->)]; cbn [fst snd].
  - splits; auto. tauto.
  - split; [reflexivity|]. split; [apply Inv_upd; auto; now rewrite map_length|].
    split; [intros; now apply tabm_upd_ne|].
    split; [|split; [|auto]]; cbn [upd adjusted]; intros m; rewrite set_add_In; tauto.
Qed.

Definition ordinary_rules (rules : list (Z * list Z)) : Prop :=
  forall sm parts, In (sm, parts) rules -> ordinary parts /\ sm <> 452 /\ sm <> 1018.

Lemma sum_list_ordinary : ordinary_rules sum_list.
Proof. intros sm parts H. now apply rule_ordinary. Qed.

Lemma ordinary_rules_tl r rules : ordinary_rules (r :: rules) -> ordinary_rules rules.
Proof. intros H sm parts Hin. apply H. now right. Qed.

Lemma sum_rules_facts t rules : forall s,
  wf_table t -> Inv t s -> ordinary_rules rules ->
  let s' := fst (sum_rules rules s) in
  snd (sum_rules rules s) = true /\ Inv t s' /\
  (forall m, ~ In m (map fst rules) -> tabm s' m = tabm s m) /\
  (forall m, ~ In m (map fst rules) -> (In m (adjusted s') <-> In m (adjusted s))) /\
  (forall m, In m (adjusted s) -> In m (adjusted s')) /\
  all_mts s' = all_mts s /\ nu (cur s') = nu (cur s) /\ chi (cur s') = chi (cur s).
Proof.
  induction rules as [|[sm parts] rest IH]; intros s Hwf I Ho; cbv zeta.
  - cbn. splits; auto. tauto.
  - destruct (Ho sm parts) as (Ho1 & H1 & H2); [now left|].
    destruct (sum_rule_facts t s sm parts Hwf I Ho1 H1 H2) as (F1 & F2 & F3 & F4 & F5 & F6 & F7 & F8).
    cbn [sum_rules]. destruct (sum_rule s (sm, parts)) as [s1 ok]. cbn [fst snd] in *. subst ok.
    destruct (IH s1 Hwf F2 (ordinary_rules_tl _ _ Ho)) as (G1 & G2 & G3 & G4 & G5 & G6 & G7 & G8).
    cbn [map fst In]. splits; auto; try congruence.
    + intros m Hm. rewrite G3 by tauto. apply F3. intros ->. tauto.
    + intros m Hm. rewrite G4 by tauto. apply F4. intros ->. tauto.
Qed.

(** A rule whose inputs did not change writes the same thing. *)
Lemma adj_of_ext s1 s2 parts :
  all_mts s1 = all_mts s2 ->
  (forall m, In m parts -> (In m (adjusted s1) <-> In m (adjusted s2))) ->
  adj_of s1 parts = adj_of s2 parts.
Proof.
  intros Ha H. unfold adj_of. rewrite Ha. unfold present at 1 3.
  apply filter_ext_in. intros m Hm. apply nodup_In, present_In in Hm as [Hm _].
  specialize (H m Hm). destruct (mem m (adjusted s1)) eqn:E1, (mem m (adjusted s2)) eqn:E2; auto;
    rewrite ?mem_In, ?mem_nIn in *; tauto.
Qed.

Lemma newval_ext t s1 s2 sm adj e :
  (forall m, In m adj -> tabm s1 m = tabm s2 m) -> newval t s1 sm adj e = newval t s2 sm adj e.
Proof.
  intros H. unfold newval. f_equal. apply qsum_map_ext. intros m Hm. now rewrite H.
Qed.

Lemma set_y_same rx : set_y rx (ty rx) = rx.
Proof. now destruct rx. Qed.

Lemma upd_same t s sm rx ys :
  Inv t s -> tabm s sm = Some rx -> ty rx = ys -> In sm (adjusted s) -> upd s sm rx ys = s.
Proof.
  intros I E Hy Ha. unfold upd. subst ys. rewrite set_y_same.
  rewrite replace_same by exact E. rewrite set_add_same by exact Ha.
  unfold record_original. destruct (inv_adj _ _ I sm Ha) as [v ->].
  destruct s as [[? ? ?] ? ? ? ?]. reflexivity.
Qed.

(** After the whole pass, each rule is at rest. *)
Lemma sum_rules_stable t rules : forall s,
  wf_table t -> Inv t s -> ordinary_rules rules -> wellordered rules ->
  forall sm parts, In (sm, parts) rules ->
    let s' := fst (sum_rules rules s) in
    (adj_of s' parts = [] \/ ~ In sm (map fst (reactions t)) \/
     (In sm (adjusted s') /\ exists rx, tabm s' sm = Some rx /\
        ty rx = map (newval t s' sm (adj_of s' parts)) (tx rx))).
Proof.
  induction rules as [|[sm0 parts0] rest IH]; intros s Hwf I Ho Hw sm parts Hin; [destruct Hin|].
  cbv zeta. cbn [wellordered] in Hw. destruct Hw as (W1 & W2 & W3 & W4).
  destruct (Ho sm0 parts0) as (Ho1 & H1 & H2); [now left|].
  destruct (sum_rule_facts t s sm0 parts0 Hwf I Ho1 H1 H2) as (F1 & F2 & F3 & F4 & F5 & F6 & _ & _).
  pose proof (sum_rule_cases t s sm0 parts0 Hwf I Ho1 H1 H2) as Hc.
  cbn [sum_rules]. destruct (sum_rule s (sm0, parts0)) as [s1 ok] eqn:Es. cbn [fst snd] in *. subst ok.
  destruct Hin as [Heq|Hin].
  2:{ exact (IH s1 Hwf F2 (ordinary_rules_tl _ _ Ho) W4 sm parts Hin). }
  injection Heq as -> ->.
  destruct (sum_rules_facts t rest s1 Hwf F2 (ordinary_rules_tl _ _ Ho))
    as (G1 & G2 & G3 & G4 & G5 & G6 & _ & _).
  set (s' := fst (sum_rules rest s1)) in *.
  assert (Hadj : adj_of s' parts = adj_of s parts).
  { apply adj_of_ext; [congruence|]. intros m Hm.
    rewrite G4 by (intros H; exact (W3 m H Hm)). apply F4. intros ->. exact (W1 Hm). }
  assert (Htab : forall m, In m parts -> tabm s' m = tabm s m).
  { intros m Hm. rewrite G3 by (intros H; exact (W3 m H Hm)). apply F3. intros ->. exact (W1 Hm). }
  destruct Hc as [(E & [Hk|Ha])|(rx & E & Hne & Hup)].
  - right; left; exact Hk.
  - left. congruence.
  - right; right. injection Hup as Hup. split.
    + apply G5. rewrite Hup. cbn. apply set_add_In. now left.
    + exists (set_y rx (map (newval t s sm (adj_of s parts)) (tx rx))). split.
      * rewrite G3 by exact W2. rewrite Hup. now apply tabm_upd_eq.
      * cbn [ty tx set_y]. rewrite Hadj. apply map_ext_in. intros e _. apply newval_ext.
        intros m Hm. symmetry. apply Htab. now apply adj_of_In in Hm.
Qed.

Lemma pass_inv t s : wf_table t -> Inv t s ->
  snd (apply_sum_rules s) = true /\ Inv t (fst (apply_sum_rules s)).
Proof.
  intros Hwf I. destruct (sum_rules_facts t sum_list s Hwf I sum_list_ordinary) as (H1 & H2 & _).
  split; assumption.
Qed.

Lemma Inv_call t s c : wf_table t -> Inv t s -> Inv t (fst (do_call s c)).
Proof.
  intros Hwf I. destruct c as [m v|]; cbn [do_call].
  - now apply Inv_set_sigma.
  - now apply pass_inv.
Qed.

Lemma Inv_run t h : forall s, wf_table t -> Inv t s -> Inv t (run s h).
Proof.
  induction h as [|c h IH]; intros s Hwf I; cbn [run fold_left]; [exact I|].
  apply IH; auto. now apply Inv_call.
Qed.

Lemma Inv_reach t h : wf_table t -> Inv t (run (open_editor t) h).
Proof. intros Hwf. apply Inv_run; auto. now apply Inv_open. Qed.

Lemma Inv_after_pass t h : wf_table t -> Inv t (after_pass t h).
Proof. intros Hwf. apply pass_inv; auto. now apply Inv_reach. Qed.

(** * C01 *)

Lemma reading_key t s (u : bool) m e rx :
  wf_table t -> Inv t s -> m <> 452 ->
  lookup m (reactions (if u then orig s else cur s)) = Some rx -> tx rx <> [] ->
  reading s u m e = tab_at rx e.
Proof.
  intros Hwf I H1 E Hne. unfold reading, get_sigma. apply Z.eqb_neq in H1. rewrite H1, E.
  now rewrite tab_call_some.
Qed.

Lemma reading_cur t s m e : wf_table t -> Inv t s -> In m (map fst (reactions t)) ->
  reading s false m e = match tabm s m with Some r => tab_at r e | None => 0%Qc end.
Proof.
  intros Hwf I Hk. destruct (key_tabm _ _ _ I Hk) as [rx E]. rewrite E.
  destruct (key_lookup _ _ Hk) as [r0 E0]. destruct (wf_lookup _ _ _ Hwf E0) as (N1 & _).
  eapply reading_key; eauto. eapply Inv_tabm_nonempty; eauto.
Qed.

Lemma reading_orig t s m e : wf_table t -> Inv t s -> In m (map fst (reactions t)) ->
  reading s true m e = match lookup m (reactions t) with Some r => tab_at r e | None => 0%Qc end.
Proof.
  intros Hwf I Hk. destruct (key_lookup _ _ Hk) as [r0 E0]. rewrite E0.
  destruct (wf_lookup _ _ _ Hwf E0) as (N1 & _ & N & _).
  eapply reading_key; eauto. cbn. now rewrite (inv_orig _ _ I).
Qed.

(** The sum over edited constituents is the sum over all constituents of the
    file: unedited ones contribute nothing. *)
Lemma adj_sum t s sm parts e :
  wf_table t -> Inv t s -> In (sm, parts) sum_list ->
  newval t s sm (adj_of s parts) e
  = (match lookup sm (reactions t) with Some r => tab_at r e | None => 0%Qc end
     + qsum (map (change s e) (constituents t sm)))%Qc.
Proof.
  intros Hwf I Hr. unfold newval. cbv zeta. f_equal.
  rewrite <- (qsum_filter_zero (change s e) (fun m => mem m (adjusted s)) (constituents t sm)).
  - rewrite (qsum_map_ext _ (change s e) (adj_of s parts)).
    + apply qsum_perm. apply Permutation_map. apply NoDup_Permutation.
      * apply present_NoDup.
      * apply NoDup_filter, NoDup_filter. apply Hwf.
      * intros m. unfold constituents. rewrite adj_of_In, !filter_In, mem_In, part_ofb_iff.
        rewrite (rule_parts _ _ Hr). rewrite (inv_all _ _ I).
        split; [intros (A & B & C)|intros ((A & B) & C)]; repeat split; auto.
        -- apply all_in_keys; auto; unfold part_of in B; lia.
        -- now apply keys_in_all.
    + intros m Hm. apply adj_of_In in Hm as (A & B & C).
      destruct (rule_ordinary _ _ Hr) as ((O1 & O2) & _).
      assert (Hk : In m (map fst (reactions t))) by (eapply Inv_all_key; eauto; congruence).
      unfold change. now rewrite (reading_cur t), (reading_orig t).
  - intros m Hm Hn. apply mem_nIn in Hn. apply filter_In in Hm as [Hk _].
    unfold change. rewrite (reading_cur t), (reading_orig t) by auto.
    rewrite (inv_unadj _ _ I m Hn). ring.
Qed.

Lemma redundant_balanced t h sm :
  wf_table t -> In sm (map fst (reactions t)) ->
  (exists m, part_of sm m /\ In m (map fst (reactions t)) /\ In m (adjusted (after_pass t h))) ->
  exists es ys,
    get_energy (after_pass t h) sm = Some es /\
    get_sigma (after_pass t h) sm None false = Some ys /\
    ys = map (fun e => reading (after_pass t h) true sm e
                       + qsum (map (change (after_pass t h) e) (constituents t sm)))%Qc es.
Proof.
  intros Hwf Hk (m & Hp & Hmk & Hma).
  destruct (part_of_rule _ _ Hp) as [parts Hr].
  pose proof (Inv_reach t h Hwf) as I0. pose proof (Inv_after_pass t h Hwf) as I.
  destruct (sum_rules_stable t sum_list (run (open_editor t) h) Hwf I0 sum_list_ordinary
              sum_list_wellordered sm parts Hr) as [H|[H|(Ha & rx & E & Hy)]].
  - exfalso. assert (Hbad : In m (@nil Z)); [|destruct Hbad]. rewrite <- H. apply adj_of_In. split; [exact Hma|].
    split; [now apply (rule_parts _ _ Hr)|]. fold (after_pass t h).
    change (In m (all_mts (after_pass t h))). rewrite (inv_all _ _ I). now apply keys_in_all.
  - contradiction.
  - change (fst (sum_rules sum_list (run (open_editor t) h))) with (after_pass t h) in *.
    exists (tx rx), (ty rx).
    destruct (rule_ordinary _ _ Hr) as (_ & N1 & N2). apply Z.eqb_neq in N1.
    unfold tabm in E.
    split; [unfold get_energy; now rewrite N1, E|].
    split; [unfold get_sigma; now rewrite N1, E|].
    rewrite Hy. apply map_ext. intros e. rewrite (adj_sum t) by auto.
    rewrite (reading_orig t) by auto. reflexivity.
Qed.

(** Balance is preserved: where the file satisfied the sum, the result does. *)
Lemma change_sum s e ms :
  qsum (map (change s e) ms)
  = (qsum (map (fun m => reading s false m e) ms) - qsum (map (fun m => reading s true m e) ms))%Qc.
Proof. apply (qsum_map_sub (fun m => reading s false m e) (fun m => reading s true m e)). Qed.

Lemma balance_preserved t h sm :
  wf_table t -> In sm (map fst (reactions t)) ->
  (exists m, part_of sm m /\ In m (map fst (reactions t)) /\ In m (adjusted (after_pass t h))) ->
  exists es ys,
    get_energy (after_pass t h) sm = Some es /\
    get_sigma (after_pass t h) sm None false = Some ys /\ length ys = length es /\
    forall i, (i < length es)%nat ->
      reading (after_pass t h) true sm (nth i es 0%Qc)
        = qsum (map (fun m => reading (after_pass t h) true m (nth i es 0%Qc)) (constituents t sm)) ->
      nth i ys 0%Qc
        = qsum (map (fun m => reading (after_pass t h) false m (nth i es 0%Qc)) (constituents t sm)).
Proof.
  intros Hwf Hk Hex. destruct (redundant_balanced t h sm Hwf Hk Hex) as (es & ys & H1 & H2 & H3).
  exists es, ys. split; [exact H1|]. split; [exact H2|].
  split; [subst ys; now rewrite map_length|].
  intros i Hi Hb. subst ys.
  rewrite nth_indep with (d' := (fun e => reading (after_pass t h) true sm e
                       + qsum (map (change (after_pass t h) e) (constituents t sm)))%Qc 0%Qc)
    by now rewrite map_length.
  rewrite (map_nth (fun e => reading (after_pass t h) true sm e
                       + qsum (map (change (after_pass t h) e) (constituents t sm)))%Qc).
  rewrite change_sum, Hb. ring.
Qed.

Lemma pass_never_raises t h : wf_table t ->
  snd (apply_sum_rules (run (open_editor t) h)) = true.
Proof. intros Hwf. apply (pass_inv t); auto. now apply Inv_reach. Qed.

(** * C02 *)
Lemma rules_at_rest t rules s :
  wf_table t -> Inv t s -> ordinary_rules rules ->
  (forall sm parts, In (sm, parts) rules ->
     adj_of s parts = [] \/ ~ In sm (map fst (reactions t)) \/
     (In sm (adjusted s) /\ exists rx, tabm s sm = Some rx /\
        ty rx = map (newval t s sm (adj_of s parts)) (tx rx))) ->
  sum_rules rules s = (s, true).
Proof.
  intros Hwf I. induction rules as [|[sm parts] rest IH]; intros Ho H; cbn [sum_rules]; [reflexivity|].
  destruct (Ho sm parts) as (Ho1 & H1 & H2); [now left|].
  assert (E : sum_rule s (sm, parts) = (s, true)).
  { destruct (sum_rule_cases t s sm parts Hwf I Ho1 H1 H2) as [(-> & _)|(rx & E & Hne & ->)]; [reflexivity|].
    destruct (H sm parts (or_introl eq_refl)) as [K|[K|(Ha & rx' & E' & Hy)]].
    - contradiction.
    - exfalso. apply K. rewrite <- (inv_keys _ _ I). now apply lookup_Some_key in E.
    - rewrite E in E'. injection E' as <-. f_equal. apply (upd_same t); auto. }
  rewrite E. apply IH; [now apply ordinary_rules_tl in Ho|].
  intros; apply H; now right.
Qed.

Lemma second_pass_noop t h : wf_table t ->
  apply_sum_rules (after_pass t h) = (after_pass t h, true).
Proof.
  intros Hwf. apply (rules_at_rest t); auto using Inv_after_pass, sum_list_ordinary.
  intros sm parts Hr.
  pose proof (Inv_reach t h Hwf) as I0.
  exact (sum_rules_stable t sum_list _ Hwf I0 sum_list_ordinary sum_list_wellordered sm parts Hr).
Qed.
