From Coq Require Import ZArith QArith Qcanon List Bool Arith Lia Permutation.
From Verif Require Import Num Sums_Model Sums_Spec.
Import ListNotations.
Local Open Scope nat_scope.

(** ** The table *)
Definition rank (m : Z) : nat :=
  if (m =? 1)%Z then 5 else if (m =? 3)%Z then 4 else if (m =? 27)%Z then 3 else if (m =? 101)%Z then 2 else
  if existsb (fun k => (k =? m)%Z) [4; 16; 18; 103; 104; 105; 106; 107]%Z then 1 else 0.
(** The sum a reaction is listed under. *)
Definition parent (c : Z) : Z :=
  match find (fun e => existsb (fun x => (x =? c)%Z) (snd e)) sum_rules with Some e => fst e | None => 0%Z end.
Definition table_ok : bool :=
  forallb (fun e => forallb (fun c => (Nat.ltb (rank c) (rank (fst e)) && (parent c =? fst e)%Z)%bool) (snd e)) sum_rules.
Lemma table_checked : table_ok = true. Proof. vm_compute. reflexivity. Qed.
Fixpoint nodupb (l : list Z) : bool := match l with [] => true | x :: r => negb (existsb (Z.eqb x) r) && nodupb r end.
Lemma nodupb_ok l : nodupb l = true -> NoDup l.
Proof.
  induction l as [|x l IH]; intros H; constructor; cbn in H; apply andb_true_iff in H; destruct H as [A B]; [|now apply IH].
  intros I. apply negb_true_iff in A. assert (X : existsb (Z.eqb x) l = true) by (apply existsb_exists; exists x; split; [exact I | apply Z.eqb_refl]). congruence.
Qed.
Lemma keys_nodup : NoDup (map fst sum_rules). Proof. apply nodupb_ok. reflexivity. Qed.
Lemma rules_nodup : Forall (fun e => nodupb (snd e) = true) sum_rules.
Proof. apply Forall_forall. assert (H : forallb (fun e => nodupb (snd e)) sum_rules = true) by reflexivity. now apply forallb_forall. Qed.
Lemma find_key {A} : forall (l : list (Z * A)) a v, NoDup (map fst l) -> In (a, v) l -> find (fun e => (fst e =? a)%Z) l = Some (a, v).
Proof.
  induction l as [|[k w] l IH]; intros a v N I; [destruct I|]. cbn. cbn in N. inversion N as [|? ? N1 N2]; subst. destruct I as [I|I].
  - injection I as -> ->. now rewrite Z.eqb_refl.
  - destruct (Z.eqb_spec k a) as [->|_]; [|now apply IH]. exfalso. apply N1. now apply (in_map fst) in I.
Qed.
Lemma zrange_In a n b : In b (zrange a n) <-> (a <= b < a + Z.of_nat n)%Z.
Proof.
  unfold zrange. rewrite in_map_iff. split.
  - intros (i & <- & I). apply in_seq in I. lia.
  - intros H. exists (Z.to_nat (b - a)). split; [lia|]. apply in_seq. lia.
Qed.
Lemma part_listed a b : part a b <-> exists l, In (a, l) sum_rules /\ In b l.
Proof.
  unfold part. split.
  - intros H. repeat match type of H with _ \/ _ => destruct H as [H|H] end; destruct H as [A B]; [subst a; eexists; split; [cbn [sum_rules In]; tauto|]; first [apply zrange_In; lia | cbn [In]; lia]..|].
    assert (C : (a = 103 \/ a = 104 \/ a = 105 \/ a = 106 \/ a = 107)%Z) by lia.
    repeat match type of C with _ \/ _ => destruct C as [C|C] end; subst a; (eexists; split; [cbn [sum_rules In]; tauto | apply zrange_In; lia]).
  - intros (l & I & J). cbn [sum_rules In] in I. repeat match type of I with _ \/ _ => destruct I as [I|I] end; [injection I as <- <-; first [apply zrange_In in J | cbn [In] in J]; lia..|destruct I].
Qed.
Lemma part_rule a b : part a b <-> In b (rule a).
Proof.
  rewrite part_listed. unfold rule. split.
  - intros (l & I & J). now rewrite (find_key _ _ _ keys_nodup I).
  - destruct (find (fun e => (fst e =? a)%Z) sum_rules) as [[k l]|] eqn:F; [|intros []]. intros I. apply find_some in F. destruct F as [F E].
    apply Z.eqb_eq in E. cbn in E. subst k. now exists l.
Qed.
Lemma rule_nodup a : NoDup (rule a).
Proof.
  unfold rule. destruct (find (fun e => (fst e =? a)%Z) sum_rules) as [[k l]|] eqn:F; [|constructor]. apply find_some in F. destruct F as [F _].
  apply nodupb_ok. pose proof rules_nodup as R. rewrite Forall_forall in R. exact (R _ F).
Qed.
Lemma part_ok a b : part a b -> rank b < rank a /\ parent b = a.
Proof.
  intros H. apply part_listed in H. destruct H as (l & I & J). pose proof table_checked as T. unfold table_ok in T. rewrite forallb_forall in T. specialize (T _ I). cbn [fst snd] in T.
  rewrite forallb_forall in T. specialize (T _ J). apply andb_true_iff in T. destruct T as [A B]. apply Nat.ltb_lt in A. apply Z.eqb_eq in B. now split.
Qed.
Lemma rank_bound m : rank m <= 5.
Proof. unfold rank. repeat match goal with |- context [if ?b then _ else _] => destruct b end; lia. Qed.

(** ** Within *)
Lemma within_rank a b : within a b -> b = a \/ rank b < rank a.
Proof. induction 1 as [|b c W IH P]; [now left|]. apply part_ok in P. right. destruct IH as [->|IH]; lia. Qed.
Lemma within_trans a b c : within a b -> within b c -> within a c.
Proof. intros A B. revert A. induction B as [|x y B IH P]; intros A; [exact A|]. eapply w_step; [now apply IH | exact P]. Qed.
Lemma within_down a c : within a c -> c = a \/ exists b, part a b /\ within b c.
Proof.
  induction 1 as [|b c W IH P]; [now left|]. right. destruct IH as [->|(x & Px & Wx)]; [exists c; split; [exact P | constructor]|].
  exists x. split; [exact Px|]. eapply w_step; eassumption.
Qed.
Lemma within_part a b : part a b -> within a b.
Proof. intros P. eapply w_step; [constructor | exact P]. Qed.
Lemma within_chain a x : within a x -> forall b, within b x -> within a b \/ within b a.
Proof.
  induction 1 as [|y x W IH P]; intros b B; [now right|].
  inversion B as [|y' x' B' P']; subst; [left; eapply w_step; eassumption|].
  apply IH. apply part_ok in P. apply part_ok in P'. destruct P as [_ P], P' as [_ P']. congruence.
Qed.
Lemma siblings_apart a b c x : part a b -> part a c -> within b x -> within c x -> b = c.
Proof.
  assert (K : forall b c, part a b -> part a c -> within b c -> b = c).
  { intros p q P Q W. inversion W as [|y z W' P']; subst; [reflexivity|]. exfalso.
    pose proof (part_ok _ _ Q) as [_ E1]. pose proof (part_ok _ _ P') as [_ E2]. assert (E3 : y = a) by congruence. rewrite E3 in W'.
    pose proof (part_ok _ _ P) as [R _]. apply within_rank in W'. destruct W' as [E4|W']; [rewrite E4 in R|]; lia. }
  intros P Q W1 W2. destruct (within_chain _ _ W1 _ W2) as [W|W]; [now apply K | symmetry; now apply K].
Qed.

Lemma within_list : forall n c, rank c < n -> exists ys, forall y, within c y <-> In y ys.
Proof.
  induction n as [|n IHn]; intros c R; [lia|].
  assert (Q : forall l, (forall b, In b l -> rank b < n) -> exists ys, forall y, (exists b, In b l /\ within b y) <-> In y ys).
  { induction l as [|b l IHl]; intros Hl; [exists []; intros y; split; [intros (b & [] & _) | intros []]|].
    destruct (IHn b (Hl b (or_introl eq_refl))) as [ys1 Y1]. destruct IHl as [ys2 Y2]; [intros x X; apply Hl; now right|]. exists (ys1 ++ ys2). intros y. rewrite in_app_iff, <- Y1, <- Y2. split.
    - intros (b' & [->|I] & W); [now left | right; eauto].
    - intros [W|(b' & I & W)]; [exists b; split; [now left | exact W] | exists b'; split; [now right | exact W]]. }
  destruct (Q (rule c)) as [ys Y]; [intros b B; apply part_rule, part_ok in B; lia|]. exists (c :: ys). intros y. split.
  - intros W. destruct (within_down _ _ W) as [->|(b & Pb & Wb)]; [now left|]. right. apply Y. exists b. split; [now apply part_rule | exact Wb].
  - intros [<-|I]; [constructor|]. apply Y in I. destruct I as (b & B & W). eapply within_trans; [apply within_part, part_rule; exact B | exact W].
Qed.
Lemma finest_exists present : forall n c, rank c < n -> present c = true -> exists y, within c y /\ finest (fun x => present x = true) y.
Proof.
  induction n as [|n IHn]; intros c R Pc; [lia|].
  assert (DEC : (exists y, within c y /\ y <> c /\ present y = true) \/ ~ (exists y, within c y /\ y <> c /\ present y = true)).
  { destruct (within_list (S (rank c)) c ltac:(lia)) as [ys Y]. destruct (existsb (fun y => (negb (y =? c)%Z && present y)%bool) ys) eqn:E.
    - left. apply existsb_exists in E. destruct E as (y & I & E). apply andb_true_iff in E. destruct E as [E1 E2]. exists y. split; [now apply Y|]. split; [|exact E2]. intros ->. now rewrite Z.eqb_refl in E1.
    - right. intros (y & W & N & Py). apply Y in W. assert (X : existsb (fun y => (negb (y =? c)%Z && present y)%bool) ys = true); [|congruence].
      apply existsb_exists. exists y. split; [exact W|]. apply andb_true_iff. split; [|exact Py]. apply negb_true_iff. now apply Z.eqb_neq. }
  destruct DEC as [(y & W & N & Py)|DEC].
  - pose proof (within_rank _ _ W) as [->|Ry]; [congruence|]. destruct (IHn y ltac:(lia) Py) as (z & Wz & Fz). exists z. split; [eapply within_trans; eassumption | exact Fz].
  - exists c. split; [constructor|]. split; [exact Pc|]. intros y W Py. destruct (Z.eq_dec y c) as [->|N]; [reflexivity|]. exfalso. apply DEC. eauto.
Qed.

(** ** Components *)
Lemma gather_in g : forall l r, gather g l = Some r -> forall m, In m r <-> exists c k, In c l /\ g c = Some k /\ In m k.
Proof.
  induction l as [|c l IH]; intros r H m; cbn in H; [injection H as <-; split; [intros [] | intros (c & k & [] & _)]|].
  destruct (g c) as [a|] eqn:G; [|discriminate]. destruct (gather g l) as [b|] eqn:H2; [|discriminate]. injection H as <-.
  rewrite in_app_iff, (IH b eq_refl). split.
  - intros [I|(c' & k & I & J & K)]; [exists c, a; repeat split; auto; now left | exists c', k; repeat split; auto; now right].
  - intros (c' & k & [->|I] & J & K); [left; congruence | right; eauto].
Qed.
Lemma gather_some g : forall l, (forall c, In c l -> exists k, g c = Some k) -> exists r, gather g l = Some r.
Proof.
  induction l as [|c l IH]; intros H; [now exists []|]. destruct (H c (or_introl eq_refl)) as [a A]. destruct IH as [b B]; [intros x X; apply H; now right|].
  exists (a ++ b). cbn. now rewrite A, B.
Qed.
Lemma comp_some present : forall fuel m, rank m < fuel -> exists l, comp fuel present m = Some l.
Proof.
  induction fuel as [|k IH]; intros m R; [lia|]. cbn [comp].
  destruct (gather_some (comp k present) (rule m)) as [r G].
  - intros c C. apply IH. apply part_rule, part_ok in C. lia.
  - rewrite G. destruct r; eauto.
Qed.
Lemma comp_spec present : forall fuel m l, comp fuel present m = Some l -> components (fun x => present x = true) m l.
Proof.
  set (P := fun x => present x = true).
  induction fuel as [|k IH]; intros m l H; [discriminate|]. cbn [comp] in H.
  destruct (gather (comp k present) (rule m)) as [r|] eqn:G; [|discriminate].
  assert (MEM : forall x, In x r <-> (within m x /\ x <> m) /\ finest P x).
  { intros x. rewrite (gather_in _ _ _ G). split.
    - intros (c & kk & C & E & I). apply IH in E. destruct E as [_ E]. apply E in I. destruct I as [W F]. apply part_rule in C. split; [|exact F]. split.
      + eapply within_trans; [apply within_part; exact C | exact W].
      + intros ->. apply part_ok in C. apply within_rank in W. destruct W as [->|W]; lia.
    - intros [[W N] F]. destruct (within_down _ _ W) as [E|(b & Pb & Wb)]; [congruence|].
      assert (S : exists kk, comp k present b = Some kk).
      { apply part_rule in Pb. clear -G Pb. revert r G. induction (rule m) as [|c l IHl]; intros r G; [destruct Pb|]. cbn in G.
        destruct (comp k present c) as [a|] eqn:A; [|discriminate]. destruct (gather (comp k present) l) as [b'|] eqn:B; [|discriminate]. destruct Pb as [->|Pb]; [eauto | now apply (IHl Pb b')]. }
      destruct S as [kk S]. exists b, kk. split; [now apply part_rule|]. split; [exact S|]. apply IH in S. destruct S as [_ S]. apply S. now split. }
  assert (ND : NoDup r).
  { assert (SIB : forall b c, In b (rule m) -> In c (rule m) -> forall x, within b x -> within c x -> b = c) by (intros b c B C x; apply (siblings_apart m); now apply part_rule).
    pose proof (rule_nodup m) as RN. clear MEM H. revert r G. induction (rule m) as [|c l' IHl]; intros r G; cbn in G; [injection G as <-; constructor|].
    destruct (comp k present c) as [a|] eqn:A; [|discriminate]. destruct (gather (comp k present) l') as [b'|] eqn:B; [|discriminate]. injection G as <-.
    inversion RN as [|? ? NI RN']; subst. assert (NB : NoDup b') by (apply IHl; [intros b c0 B0 C0; apply SIB; now right | exact RN' | reflexivity]).
    pose proof (IH _ _ A) as [NA IA]. clear IHl. assert (D : forall x, In x a -> ~ In x b').
    { intros x Xa Xb. apply IA in Xa. destruct Xa as [Wa _]. apply (gather_in _ _ _ B) in Xb. destruct Xb as (c' & kk & C' & E & I). apply IH in E. destruct E as [_ E]. apply E in I. destruct I as [Wb _].
      assert (c = c') by (apply (SIB c c' (or_introl eq_refl) (or_intror C') x); assumption). congruence. }
    clear -NA NB D. induction a as [|y a IHa]; [exact NB|]. inversion NA; subst. cbn. constructor.
    - rewrite in_app_iff. intros [I|I]; [contradiction | apply (D y); [now left | exact I]].
    - apply IHa; [assumption|]. intros x X. apply D. now right. }
  destruct r as [|x r].
  - injection H as <-. split; [destruct (present m); repeat constructor; intros []|]. intros x. split.
    + destruct (present m) eqn:E; [|intros []]. intros [<-|[]]. split; [constructor|]. split; [exact E|]. intros c W Pc.
      destruct (within_down _ _ W) as [->|(b & Pb & Wb)]; [reflexivity|]. exfalso.
      pose proof (finest_exists present) as FX.
      destruct (FX (S (rank c)) c ltac:(lia) Pc) as (y & Wy & Fy). apply (proj2 (MEM y)). split; [|exact Fy]. split; [eapply within_trans; eassumption|].
      intros ->. apply within_rank in W, Wy. apply part_ok in Pb. apply within_rank in Wb. destruct Wy as [E1|Wy], Wb as [E2|Wb], W as [E3|W]; subst; lia.
    + intros [W F]. destruct (Z.eq_dec x m) as [->|N]; [destruct F as [Pm _]; unfold P in Pm; rewrite Pm; now left|]. exfalso. apply (proj2 (MEM x)). now split.
  - assert (l = x :: r) by congruence. subst l. split; [exact ND|]. intros y. rewrite MEM. split; [intros [[W N] F]; now split|]. intros [W F]. split; [|exact F]. split; [exact W|].
    intros ->. assert (I : In x (x :: r)) by now left. apply MEM in I. destruct I as [[Wx Nx] [Px _]]. destruct F as [_ F]. apply Nx. now apply F.
Qed.
Lemma get_some present m : exists l, get_reaction_components present m = Some l.
Proof. apply comp_some. pose proof (rank_bound m). lia. Qed.
Lemma get_spec present m l : get_reaction_components present m = Some l -> components (fun x => present x = true) m l.
Proof. apply comp_spec. Qed.

(** ** Summing up again *)
Lemma look_new d a v m : look (d ++ [(a, v)]) m = match look d m with Some w => Some w | None => if (a =? m)%Z then Some v else None end.
Proof.
  unfold look. induction d as [|[k w] d IH]; [cbn; destruct (a =? m)%Z; reflexivity|]. cbn [app find fst]. destruct (k =? m)%Z; [reflexivity | exact IH].
Qed.
Lemma add_sum_other d a m : m <> a -> look (add_sum d a) m = look d m.
Proof.
  intros N. unfold add_sum. destruct (has d a); [reflexivity|]. destruct (parts_of d (rule a)); [reflexivity|]. rewrite look_new. destruct (look d m); [reflexivity|].
  destruct (Z.eqb_spec a m) as [E|_]; [congruence | reflexivity].
Qed.
Lemma add_sum_there d a m v : look d m = Some v -> look (add_sum d a) m = Some v.
Proof. intros H. unfold add_sum. destruct (has d a); [exact H|]. destruct (parts_of d (rule a)); [exact H|]. rewrite look_new. now rewrite H. Qed.
Lemma add_sum_self d a : look d a = None -> look (add_sum d a) a = match parts_of d (rule a) with [] => None | vs => Some (qsum vs) end.
Proof.
  intros H. unfold add_sum, has. rewrite H. destruct (parts_of d (rule a)) as [|x vs] eqn:E; [exact H|]. rewrite look_new, H, Z.eqb_refl. reflexivity.
Qed.
Lemma fold_other : forall l d m, ~ In m l -> look (fold_left add_sum l d) m = look d m.
Proof. induction l as [|a l IH]; intros d m N; [reflexivity|]. cbn [fold_left]. rewrite IH; [|intros I; apply N; now right]. apply add_sum_other. intros ->. apply N. now left. Qed.
Lemma fold_there : forall l d m v, look d m = Some v -> look (fold_left add_sum l d) m = Some v.
Proof. induction l as [|a l IH]; intros d m v H; [exact H|]. cbn [fold_left]. apply IH. now apply add_sum_there. Qed.
Lemma parts_same d d' : forall l, (forall c, In c l -> look d' c = look d c) -> parts_of d' l = parts_of d l.
Proof. induction l as [|c l IH]; intros H; [reflexivity|]. cbn [parts_of]. rewrite (H c (or_introl eq_refl)), IH; [reflexivity|]. intros x X. apply H. now right. Qed.
Lemma parts_nil d : forall l, parts_of d l = [] <-> forall c, In c l -> look d c = None.
Proof.
  induction l as [|c l IH]; [split; [intros _ c [] | reflexivity]|]. cbn [parts_of]. split.
  - intros H x [<-|X]; destruct (look d c); try discriminate; try reflexivity. now apply IH.
  - intros H. rewrite (H c (or_introl eq_refl)). apply IH. intros x X. apply H. now right.
Qed.
Lemma parts_total d : forall l, qsum (parts_of d l) = total (value d) l.
Proof.
  induction l as [|c l IH]; [reflexivity|]. cbn [parts_of total]. unfold value at 1. destruct (look d c) as [v|].
  - rewrite qsum_cons, IH. reflexivity.
  - rewrite IH. ring.
Qed.
(** Only fission comes after its sum in the order. *)
Fixpoint order_ok (l : list Z) : bool :=
  match l with [] => true | m :: r => forallb (fun c => (negb (existsb (Z.eqb c) (m :: r)) || (c =? 18)%Z)%bool) (rule m) && order_ok r end.
Lemma order_checked : order_ok order = true. Proof. vm_compute. reflexivity. Qed.
Lemma order_after : forall l pre m post c, order_ok l = true -> l = pre ++ m :: post -> In c (rule m) -> ~ In c (m :: post) \/ c = 18%Z.
Proof.
  intros l pre. revert l. induction pre as [|a pre IH]; intros l m post c K E I; subst l; cbn [app order_ok] in K; apply andb_true_iff in K; destruct K as [K1 K2].
  - rewrite forallb_forall in K1. specialize (K1 c I). apply orb_true_iff in K1. destruct K1 as [K1|K1]; [left | right; now apply Z.eqb_eq].
    intros J. apply negb_true_iff in K1. assert (X : existsb (Z.eqb c) (m :: post) = true) by (apply existsb_exists; exists c; split; [exact J | apply Z.eqb_refl]). congruence.
  - eapply IH; [exact K2 | reflexivity | exact I].
Qed.
Lemma order_nodup : NoDup order. Proof. apply nodupb_ok. reflexivity. Qed.
Lemma order_keys m : In m order <-> rule m <> [].
Proof.
  split.
  - intros I. assert (K : forallb (fun m => match rule m with [] => false | _ => true end) order = true) by (vm_compute; reflexivity).
    rewrite forallb_forall in K. specialize (K m I). destruct (rule m); [discriminate | intros; discriminate].
  - intros H. assert (I : In m (map fst sum_rules)).
    { unfold rule in H. destruct (find (fun e => (fst e =? m)%Z) sum_rules) as [[k l]|] eqn:F; [|congruence]. apply find_some in F. destruct F as [F E]. apply Z.eqb_eq in E. cbn in E. subst k. now apply (in_map fst) in F. }
    cbn in I. cbn. tauto.
Qed.
Lemma fission_parts_leaf c : part 18 c -> ~ In c order.
Proof. intros P. apply part_rule in P. cbn in P. cbn. intros I. intuition lia. Qed.
Lemma fold_fission : forall l d, fission_told d -> (forall c, In c l -> In c order) -> look (fold_left add_sum l d) 18 = look d 18.
Proof.
  intros l d [T|T] I.
  - destruct (look d 18) as [v|] eqn:E; [now apply fold_there | now destruct T].
  - revert d T. induction l as [|a l IH]; intros d T; [reflexivity|]. cbn [fold_left].
    assert (NP : forall c, part 18 c -> c <> a) by (intros c P ->; apply (fission_parts_leaf _ P), I; now left).
    rewrite IH.
    + destruct (Z.eq_dec a 18) as [->|N]; [|apply add_sum_other; congruence]. unfold add_sum. destruct (has d 18); [reflexivity|].
      assert (E : parts_of d (rule 18) = []); [|now rewrite E]. apply parts_nil. intros c C. apply part_rule in C. specialize (T c C). unfold there in T. destruct (look d c); [|reflexivity]. exfalso. apply T. discriminate.
    + intros c C. apply I. now right.
    + intros c C. unfold there. rewrite add_sum_other by (now apply NP). now apply T.
Qed.
Record closed0 (d d' : held) : Prop := {
  k_kept : forall m, there d m -> look d' m = look d m;
  k_leaf : forall m, rule m = [] -> look d' m = look d m;
  k_there : forall m, ~ there d m -> rule m <> [] -> (there d' m <-> exists c, part m c /\ there d' c);
  k_sum : forall m, ~ there d m -> there d' m -> value d' m = total (value d') (rule m) }.
Lemma rebuild_closed0 d : fission_told d -> closed0 d (rebuild d).
Proof.
  intros T.
  assert (K : forall m, there d m -> look (rebuild d) m = look d m).
  { intros m H. unfold there in H. destruct (look d m) as [v|] eqn:E; [|congruence]. now apply fold_there. }
  assert (M : forall m, ~ there d m -> rule m <> [] ->
     look (rebuild d) m = match parts_of (rebuild d) (rule m) with [] => None | vs => Some (qsum vs) end).
  { intros m H R. apply order_keys in R. destruct (in_split _ _ R) as (pre & post & E).
    pose proof order_nodup as N. rewrite E in N. apply NoDup_remove_2 in N. rewrite in_app_iff in N.
    assert (P : parts_of (rebuild d) (rule m) = parts_of (fold_left add_sum pre d) (rule m)).
    { apply parts_same. intros c C. unfold rebuild. rewrite E. rewrite fold_left_app.
      destruct (order_after order pre m post c order_checked E C) as [A|A].
      - now apply fold_other.
      - subst c. rewrite <- fold_left_app, !fold_fission; auto; intros c I; rewrite E; auto. apply in_app_iff. now left. }
    rewrite P. unfold rebuild at 1. rewrite E, fold_left_app. cbn [fold_left]. rewrite fold_other by tauto. apply add_sum_self.
    rewrite fold_other by tauto. unfold there in H. destruct (look d m); [exfalso; apply H; discriminate | reflexivity]. }
  constructor.
  - exact K.
  - intros m R. apply fold_other. rewrite order_keys. congruence.
  - intros m H R. specialize (M m H R). unfold there at 1. rewrite M. destruct (parts_of (rebuild d) (rule m)) as [|x vs] eqn:E.
    + split; [congruence|]. intros (c & P & Hc). exfalso. apply Hc. apply part_rule in P. now apply (proj1 (parts_nil _ _) E).
    + split; [intros _|discriminate]. assert (NE : ~ forall c, In c (rule m) -> look (rebuild d) c = None) by (intros A; apply parts_nil in A; congruence).
      clear -NE. setoid_rewrite part_rule. induction (rule m) as [|c l IH]; [exfalso; apply NE; intros c []|].
      destruct (look (rebuild d) c) eqn:L; [exists c; split; [now left | unfold there; congruence]|].
      destruct IH as (y & Y1 & Y2); [|exists y; split; [now right | exact Y2]]. intros A. apply NE. intros y [<-|Y]; [exact L | now apply A].
  - intros m H H'. assert (R : rule m <> []).
    { intros R. apply H'. unfold rebuild. rewrite fold_other by (rewrite order_keys; congruence). unfold there in H. destruct (look d m); [exfalso; apply H; discriminate | reflexivity]. }
    unfold value at 1. rewrite (M m H R) in *. unfold there in H'. rewrite (M m H R) in H'. destruct (parts_of (rebuild d) (rule m)) as [|x vs] eqn:E; [congruence|]. rewrite <- E. apply parts_total.
Qed.
(** ** Values *)
Lemma has_there d m : has d m = true <-> there d m.
Proof. unfold has, there. destruct (look d m); split; congruence. Qed.
Lemma finest_ext (P Q : Z -> Prop) m : (forall x, P x <-> Q x) -> finest P m <-> finest Q m.
Proof. intros E. unfold finest. rewrite E. split; intros [A B]; (split; [exact A|]); intros c W X; apply B; auto; now apply E. Qed.
Lemma components_ext (P Q : Z -> Prop) m l : (forall x, finest P x <-> finest Q x) -> components P m l -> components Q m l.
Proof. intros E [N H]. split; [exact N|]. intros x. rewrite H, E. reflexivity. Qed.
Lemma total_app f a b : total f (a ++ b) = (total f a + total f b)%Qc.
Proof. induction a as [|x a IH]; cbn; [ring | rewrite IH; ring]. Qed.
Lemma total_ext f g : forall l, (forall x, In x l -> f x = g x) -> total f l = total g l.
Proof. induction l as [|x l IH]; intros H; [reflexivity|]. cbn. rewrite (H x (or_introl eq_refl)), IH; [reflexivity|]. intros y Y. apply H. now right. Qed.
Lemma total_perm f l l' : Permutation l l' -> total f l = total f l'.
Proof. induction 1; cbn; try congruence. ring. Qed.
Lemma components_perm P a l l' : components P a l -> components P a l' -> Permutation l l'.
Proof. intros [N H] [N' H']. apply NoDup_Permutation; auto. intros x. rewrite H, H'. reflexivity. Qed.
Section Values.
Variables d d' : held.
Hypothesis C : closed0 d d'.
Hypothesis sums : forall m l, there d m -> components (there d) m l -> value d m = total (value d) l.
Lemma values : forall fuel m l, comp fuel (has d) m = Some l -> (there d' m <-> l <> []) /\ value d' m = total (value d) l.
Proof.
  induction fuel as [|k IH]; intros m l H; [discriminate|].
  pose proof (comp_spec _ _ _ _ H) as CS. apply (components_ext _ (there d)) in CS; [|intros x; apply finest_ext; intros y; apply has_there].
  destruct (has d m) eqn:E.
  - pose proof (proj1 (has_there _ _) E) as T. split.
    + split; [intros _|intros _; unfold there; now rewrite (k_kept _ _ C m T)]. intros ->. destruct (finest_exists (has d) (S (rank m)) m ltac:(lia) E) as (y & Wy & Fy).
      apply (finest_ext _ (there d)) in Fy; [|intros z; apply has_there]. apply (proj2 CS y). now split.
    + unfold value at 1. rewrite (k_kept _ _ C m T). exact (sums m l T CS).
  - assert (NT : ~ there d m) by (intros T; apply has_there in T; congruence). cbn [comp] in H.
    destruct (gather (comp k (has d)) (rule m)) as [r|] eqn:G; [|discriminate].
    assert (l = r) by (rewrite E in H; destruct r; congruence). subst r. clear H.
    assert (GG : (l <> [] <-> exists c, In c (rule m) /\ there d' c) /\ total (value d') (rule m) = total (value d) l).
    { clear CS. revert l G. induction (rule m) as [|c t IHt]; intros l G; cbn in G; [injection G as <-; split; [split; [congruence | intros (c & [] & _)] | reflexivity]|].
      destruct (comp k (has d) c) as [a|] eqn:A; [|discriminate]. destruct (gather (comp k (has d)) t) as [b|] eqn:B; [|discriminate]. injection G as <-.
      destruct (IH _ _ A) as [A1 A2]. destruct (IHt b eq_refl) as [B1 B2]. split.
      - split.
        + intros N. destruct a as [|x a]; [|exists c; split; [now left | apply A1; discriminate]]. destruct (proj1 B1 N) as (y & Y1 & Y2). exists y. split; [now right | exact Y2].
        + intros (y & [<-|Y] & T); [apply A1 in T; destruct a; [congruence | discriminate]|]. assert (b <> []) by (apply B1; eauto). destruct a; [assumption | discriminate].
      - cbn [total]. now rewrite total_app, A2, B2. }
    destruct GG as [G1 G2]. destruct (rule m) as [|c t] eqn:R.
    + cbn in G. injection G as <-. pose proof (k_leaf _ _ C m R) as L. unfold there in *. split; [split; [|congruence]; intros T; rewrite L in T; contradiction|].
      unfold value at 1. rewrite L. destruct (look d m); [exfalso; apply NT; discriminate | reflexivity].
    + assert (RN : rule m <> []) by (rewrite R; discriminate). pose proof (k_there _ _ C m NT RN) as TH. setoid_rewrite part_rule in TH. rewrite R in TH. split; [rewrite TH, G1; reflexivity|].
      destruct (has d' m) eqn:E2.
      * apply has_there in E2. rewrite (k_sum _ _ C m NT E2), R. exact G2.
      * assert (N2 : ~ there d' m) by (intros X; apply has_there in X; congruence). assert (l = []) by (destruct l; [reflexivity|]; exfalso; apply N2, TH, G1; discriminate). subst l. cbn [total].
        unfold value. unfold there in N2. destruct (look d' m); [exfalso; apply N2; discriminate | reflexivity].
Qed.
End Values.
Lemma rebuild_values d m l : fission_told d -> (forall m l, there d m -> components (there d) m l -> value d m = total (value d) l) -> components (there d) m l ->
  (there (rebuild d) m <-> l <> []) /\ value (rebuild d) m = total (value d) l.
Proof.
  intros F SM CM. destruct (comp_some (has d) (S (rank m)) m ltac:(lia)) as [l0 L0]. destruct (values d (rebuild d) (rebuild_closed0 d F) SM _ _ _ L0) as [A B].
  apply comp_spec in L0. apply (components_ext _ (there d)) in L0; [|intros x; apply finest_ext; intros y; apply has_there].
  pose proof (components_perm _ _ _ _ L0 CM) as P. rewrite (total_perm _ _ _ P) in B. split; [|exact B]. rewrite A.
  split; intros N E; apply N; subst; [apply Permutation_sym in P|]; now apply Permutation_nil in P.
Qed.
(** ** Through a file *)
Lemma look_map rs m : NoDup (map rmt rs) -> forall r, In r rs -> rmt r = m -> look (before rs) m = Some (rxs r).
Proof.
  intros N r I <-. unfold look, before. assert (N' : NoDup (map fst (map (fun r => (rmt r, rxs r)) rs))) by (rewrite map_map; exact N).
  rewrite (find_key _ _ (rxs r) N'); [reflexivity|]. now apply (in_map (fun r => (rmt r, rxs r))) in I.
Qed.
Lemma there_map rs m : there (before rs) m <-> exists r, In r rs /\ rmt r = m.
Proof.
  unfold there, look, before. split.
  - destruct (find (fun e => (fst e =? m)%Z) (map (fun r => (rmt r, rxs r)) rs)) as [[k v]|] eqn:F; [|congruence]. intros _. apply find_some in F. destruct F as [F E]. apply Z.eqb_eq in E. cbn in E. subst k.
    apply in_map_iff in F. destruct F as (r & E & I). injection E as E1 E2. eauto.
  - intros (r & I & E) H. destruct (find (fun e => (fst e =? m)%Z) (map (fun r => (rmt r, rxs r)) rs)) as [[k v]|] eqn:F; [discriminate|].
    assert (X := find_none _ _ F (rmt r, rxs r) (in_map (fun r => (rmt r, rxs r)) _ _ I)). cbn in X. rewrite E, Z.eqb_refl in X. discriminate.
Qed.
Lemma there_some d m : there d m -> look d m = Some (value d m).
Proof. unfold there, value. destruct (look d m); congruence. Qed.
Lemma value_some d m v : look d m = Some v -> value d m = v.
Proof. unfold value. now intros ->. Qed.
Lemma finest_there d c : there d c -> exists y, within c y /\ finest (there d) y.
Proof.
  intros T. apply has_there in T. destruct (finest_exists (has d) (S (rank c)) c ltac:(lia) T) as (y & Wy & Fy). exists y. split; [exact Wy|].
  revert Fy. apply finest_ext. intros z. symmetry. apply has_there.
Qed.
Lemma components_exist d m : exists l, components (there d) m l.
Proof.
  destruct (comp_some (has d) (S (rank m)) m ltac:(lia)) as [l L]. exists l. apply comp_spec in L.
  eapply components_ext; [|exact L]. intros x. apply finest_ext. intros y. apply has_there.
Qed.
Lemma file_aux rs d : d = before (filter written rs) -> sound_library rs -> fission_told d -> forall r, In r rs -> look (rebuild d) (rmt r) = Some (rxs r).
Proof.
  intros Ed [ND SS FL] F.
  assert (SUB : forall m, there d m -> there (before rs) m).
  { intros m T. rewrite Ed in T. apply there_map in T. destruct T as (r & I & E). apply filter_In in I. apply there_map. exists r. tauto. }
  assert (NDf : NoDup (map rmt (filter written rs))).
  { clear -ND. induction rs as [|r rs IH]; [constructor|]. cbn in ND. inversion ND as [|? ? N1 N2]; subst. cbn. destruct (written r); [|now apply IH]. cbn. constructor; [|now apply IH].
    intros I. apply N1. apply in_map_iff in I. destruct I as (x & E & I). apply filter_In in I. apply in_map_iff. exists x. tauto. }
  assert (VAL : forall m, there d m -> value d m = value (before rs) m).
  { intros m T. rewrite Ed in T. apply there_map in T. destruct T as (r & I & E). assert (Lk : look d m = Some (rxs r)) by (rewrite Ed; exact (look_map _ m NDf r I E)). rewrite (value_some _ _ _ Lk). apply filter_In in I. symmetry. apply value_some. exact (look_map _ m ND r (proj1 I) E). }
  assert (FIN0 : forall m, finest (there (before rs)) m -> there d m).
  { intros m Fm. destruct (proj1 (there_map _ _) (proj1 Fm)) as (r & I & E). rewrite Ed. apply there_map. exists r. split; [|exact E]. apply filter_In. split; [exact I|].
    unfold written. destruct (redundant r) eqn:R; [|reflexivity]. exfalso. apply (FL r I R). now rewrite E. }
  assert (FIN : forall m, finest (there d) m <-> finest (there (before rs)) m).
  { intros m. split.
    - intros [T H]. split; [now apply SUB|]. intros c W Tc. destruct (finest_there _ _ Tc) as (y & Wy & Fy).
      assert (y = m) by (apply H; [eapply within_trans; eassumption | now apply FIN0]). subst y.
      apply within_rank in W, Wy. destruct W as [->|W]; [reflexivity|]. destruct Wy as [E|Wy]; [now rewrite E | lia].
    - intros Fm. split; [now apply FIN0|]. intros c W Tc. apply (proj2 Fm); [exact W | now apply SUB]. }
  assert (SUMS : forall m l, there d m -> components (there d) m l -> value d m = total (value d) l).
  { intros m l T CM. rewrite (VAL m T). assert (CM0 : components (there (before rs)) m l) by (eapply components_ext; [exact FIN | exact CM]).
    apply SUB, there_map in T. destruct T as (r & I & E). rewrite (total_ext _ (value (before rs))).
    - rewrite (value_some _ _ _ (look_map _ m ND r I E)). apply (SS r l I). now rewrite E.
    - intros x X. apply VAL. apply FIN0. apply (proj2 CM0) in X. tauto. }
  intros r I. destruct (components_exist (before rs) (rmt r)) as [l L].
  assert (L' : components (there d) (rmt r) l) by (eapply components_ext; [intros x; symmetry; apply FIN | exact L]).
  destruct (rebuild_values d (rmt r) l F SUMS L') as [A B]. pose proof (SS r l I L) as V.
  assert (NE : l <> []).
  { assert (T : there (before rs) (rmt r)) by (apply there_map; eauto). destruct (finest_there _ _ T) as (y & Wy & Fy). intros ->. apply (proj2 L y). now split. }
  apply A in NE. rewrite (there_some _ _ NE). f_equal. rewrite B, V. apply total_ext. intros x X. apply VAL, FIN0. apply (proj2 L) in X. tauto.
Qed.
Lemma file_round rs : sound_library rs -> fission_told (write_read rs) -> forall r, In r rs -> look (through_file rs) (rmt r) = Some (rxs r).
Proof. intros H F r I. apply (file_aux rs (write_read rs)); auto. Qed.
(** ** Checking a library by computation *)
Lemma finest_get d m l : get_reaction_components (has d) m = Some l -> finest (there d) m -> l = [m].
Proof.
  intros H F. apply get_spec in H. apply (components_ext _ (there d)) in H; [|intros x; apply finest_ext; intros y; apply has_there]. destruct H as [N H].
  assert (I : In m l) by (apply H; split; [constructor | exact F]). assert (A : forall x, In x l -> x = m) by (intros x X; apply H in X; destruct X as [W [T _]]; now apply (proj2 F)).
  destruct l as [|a l]; [destruct I|]. pose proof (A a (or_introl eq_refl)). subst a. destruct l as [|b l]; [reflexivity|]. exfalso. pose proof (A b (or_intror (or_introl eq_refl))). subst b. inversion N as [|? ? X _]. apply X. now left.
Qed.
Definition checks (rs : list reaction) : bool :=
  nodupb (map rmt rs) &&
  forallb (fun r => match get_reaction_components (has (before rs)) (rmt r) with
                    | Some l => qeqb (rxs r) (total (value (before rs)) l) && (negb (redundant r) || match l with [m] => negb (m =? rmt r)%Z | _ => true end)
                    | None => false end) rs.
Lemma checks_sound rs : checks rs = true -> sound_library rs.
Proof.
  unfold checks. intros H. apply andb_true_iff in H. destruct H as [H1 H2]. rewrite forallb_forall in H2. constructor.
  - now apply nodupb_ok.
  - intros r l I CM. specialize (H2 r I). destruct (get_reaction_components (has (before rs)) (rmt r)) as [l0|] eqn:G; [|discriminate]. apply andb_true_iff in H2. destruct H2 as [H2 _].
    destruct (qeqb_spec (rxs r) (total (value (before rs)) l0)) as [E|E]; [|discriminate]. rewrite E. apply total_perm. apply get_spec in G. apply (components_ext _ (there (before rs))) in G; [|intros x; apply finest_ext; intros y; apply has_there].
    eapply components_perm; eassumption.
  - intros r I R F. specialize (H2 r I). destruct (get_reaction_components (has (before rs)) (rmt r)) as [l0|] eqn:G; [|discriminate]. apply andb_true_iff in H2. destruct H2 as [_ H2].
    apply (finest_get _ _ _ G) in F. subst l0. rewrite R, Z.eqb_refl in H2. discriminate.
Qed.

Lemma rebuild_closed d : fission_told d -> closed d (rebuild d).
Proof.
  intros F. destruct (rebuild_closed0 d F) as [K1 K2 K3 K4]. constructor.
  - exact K1.
  - intros m H. apply K2. destruct (rule m) as [|b r] eqn:E; [reflexivity|]. exfalso. apply (H b). apply part_rule. rewrite E. now left.
  - intros m H (b & P). apply K3; [exact H|]. apply part_rule in P. intros E. now rewrite E in P.
  - intros m l H H' ND L. rewrite (K4 m H H'). apply total_perm, NoDup_Permutation; [apply rule_nodup | exact ND|]. intros b. now rewrite L, part_rule.
Qed.
Lemma written_iff rs r : In r rs -> NoDup (map rmt rs) -> (look (write_read rs) (rmt r) <> None <-> redundant r = false \/ kept_whole r).
Proof.
  intros I ND. assert (W : written r = true <-> redundant r = false \/ kept_whole r).
  { unfold written, kept_whole. destruct (redundant r); [|tauto]. rewrite !orb_true_iff, Z.eqb_eq. cbn [existsb]. rewrite !orb_true_iff, !Z.eqb_eq.
    assert (X : false = true <-> False) by (split; [discriminate | tauto]). rewrite X. assert (Y : true = false <-> False) by (split; [discriminate | tauto]). rewrite Y. intuition lia. }
  rewrite <- W. clear W. unfold write_read, look. induction rs as [|x rs IH]; [destruct I|]. cbn [map] in ND. inversion ND as [|? ? N1 N2]; subst. cbn [filter]. destruct I as [->|I].
  - destruct (written r) eqn:E; cbn [map find fst].
    + rewrite Z.eqb_refl. split; [reflexivity | discriminate].
    + split; [|discriminate]. intros H. exfalso. apply H. clear H IH. destruct (find _ _) as [[k v]|] eqn:FD; [|reflexivity]. apply find_some in FD. destruct FD as [FI FE]. apply Z.eqb_eq in FE. cbn in FE. subst k.
      apply in_map_iff in FI. destruct FI as (y & EY & IY). injection EY as EY _. apply filter_In in IY. exfalso. apply N1. rewrite <- EY. apply in_map. tauto.
  - assert (NE : rmt x <> rmt r) by (intros E; apply N1; rewrite E; now apply in_map). destruct (written x); cbn [map find fst]; [rewrite (proj2 (Z.eqb_neq _ _) NE)|]; now apply IH.
Qed.
