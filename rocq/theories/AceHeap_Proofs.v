(** Proofs about aliasing. *)
From Verif Require Import Num AceEdit_Model AceHeap_Model AceHeap_Spec.

Lemma upd_nth_other {A} i j (v : A) l d : i <> j -> nth j (upd_nth i v l) d = nth j l d.
Proof.
  revert i j; induction l as [|x r IH]; intros [|i] [|j] H; cbn; try reflexivity; try congruence.
  apply IH. congruence.
Qed.
Lemma upd_nth_length {A} i (v : A) l : length (upd_nth i v l) = length l.
Proof. revert i; induction l as [|x r IH]; intros [|i]; cbn; congruence. Qed.

Lemma content_write w a i v b : b <> a -> content (write w a i v) b = content w b.
Proof. intros H. unfold content, write. cbn [mem_]. apply upd_nth_other. congruence. Qed.

Lemma map_ext_addr {A B} (f g : A -> B) l : (forall a, In a l -> f a = g a) -> map f l = map g l.
Proof. apply map_ext_in. Qed.

Lemma view_write w a i v : ~ In a (held (ed w)) -> view (write w a i v) = view w.
Proof.
  intros H. unfold view. cbn [ed write]. unfold held in H. rewrite !in_app_iff in H.
  assert (Hc : forall b, b <> a -> content (write w a i v) b = content w b) by (intros; now apply content_write).
  repeat match goal with |- (_, _) = (_, _) => apply f_equal2 end.
  - apply map_ext_in. intros [k b] Hb. cbn. f_equal. apply Hc. intros ->. apply H. left.
    apply in_map_iff. now exists (k, a).
  - apply map_ext_in. intros [k b] Hb. cbn. f_equal. apply Hc. intros ->. apply H. right; left.
    apply in_map_iff. now exists (k, a).
  - destruct (cur_nu (ed w)) as [b|]; cbn in *; [|reflexivity]. rewrite Hc; [reflexivity|]. intros ->. tauto.
  - destruct (orig_nu (ed w)) as [b|]; cbn in *; [|reflexivity]. rewrite Hc; [reflexivity|]. intros ->. tauto.
  - apply map_ext_in. intros b Hb. apply Hc. intros ->. tauto.
  - apply map_ext_in. intros b Hb. apply Hc. intros ->. tauto.
  - apply map_ext_in. intros [k l] Hl. cbn. f_equal. apply map_ext_in. intros b Hb. apply Hc. intros ->.
    apply H. do 6 right. apply in_concat. exists l. split; [|exact Hb]. apply in_map_iff. now exists (k, l).
Qed.

(** Addresses held after a step: those held before, the one given, or new ones. *)
Lemma record_held w mt b :
  In b (held (ed (record_h w mt))) -> In b (held (ed w)) \/ (b >= length (mem_ w))%nat.
Proof.
  unfold record_h. destruct (lookup mt (osigma (ed w))) as [x|]; [auto|].
  destruct (Z.eqb mt 1018).
  - unfold held. cbn [ed cur_y orig_y cur_nu orig_nu cur_chi orig_chi osigma].
    rewrite map_app, concat_app, !in_app_iff. cbn [map snd concat app]. rewrite app_nil_r. tauto.
  - destruct (if Z.eqb mt 452 then _ else _) as [a|]; [|auto].
    cbn [alloc]. unfold held. cbn [ed cur_y orig_y cur_nu orig_nu cur_chi orig_chi osigma].
    rewrite map_app, concat_app, !in_app_iff. cbn [map snd concat app In].
    intros H. assert (length (mem_ w) = b \/ ~ length (mem_ w) = b) as [E|E] by lia; [right; lia|]. tauto.
Qed.

Lemma record_mem w mt : (length (mem_ w) <= length (mem_ (record_h w mt)))%nat.
Proof.
  unfold record_h. destruct (lookup mt _); [lia|]. destruct (Z.eqb mt 1018); [cbn; lia|].
  destruct (if Z.eqb mt 452 then _ else _); [|lia]. cbn. rewrite app_length. cbn. lia.
Qed.

Lemma record_held_lt w mt b : wf_world w ->
  In b (held (ed (record_h w mt))) -> (b < length (mem_ (record_h w mt)))%nat.
Proof.
  intros Hwf. unfold record_h. destruct (lookup mt (osigma (ed w))) as [x|]; [apply Hwf|].
  destruct (Z.eqb mt 1018).
  - intros H. apply Hwf. revert H. unfold held. cbn [ed cur_y orig_y cur_nu orig_nu cur_chi orig_chi osigma].
    rewrite map_app, concat_app, !in_app_iff. cbn [map snd concat app]. rewrite app_nil_r. tauto.
  - destruct (if Z.eqb mt 452 then _ else _) as [a|]; [|apply Hwf].
    cbn [alloc mem_]. rewrite app_length. cbn [length].
    unfold held. cbn [ed cur_y orig_y cur_nu orig_nu cur_chi orig_chi osigma].
    rewrite map_app, concat_app, !in_app_iff. cbn [map snd concat app In].
    intros H. assert (length (mem_ w) = b \/ ~ length (mem_ w) = b) as [E|E] by lia; [lia|].
    specialize (Hwf b). unfold held in Hwf. rewrite !in_app_iff in Hwf.
    assert (b < length (mem_ w))%nat by (apply Hwf; tauto). lia.
Qed.

Lemma replace_snd {A} k (v : A) l x : In x (map snd (replace k v l)) -> x = v \/ In x (map snd l).
Proof.
  induction l as [|[k' v'] r IH]; cbn; [tauto|]. destruct (Z.eqb k k'); cbn; [intuition|].
  intros [->|H]; [tauto|]. apply IH in H. tauto.
Qed.

Lemma set_held w mt a b :
  In b (held (ed (set_sigma_h w mt a))) ->
  b = a \/ In b (held (ed w)) \/ (b >= length (mem_ w))%nat.
Proof.
  unfold set_sigma_h. destruct (Z.eqb mt 1018); [auto|].
  destruct (if Z.eqb mt 452 then _ else _) as [old|]; [|auto].
  destruct (negb _); [auto|].
  intros H. assert (b = a \/ In b (held (ed (record_h w mt)))) as [K|K].
  { revert H. unfold held. cbn [ed cur_y orig_y cur_nu orig_nu cur_chi orig_chi osigma].
    rewrite !in_app_iff. destruct (Z.eqb mt 452).
    - cbn [In]. intros [H|[H|[H|H]]]; intuition.
    - intros [H|H]; [|tauto]. apply replace_snd in H. tauto. }
  - now left.
  - right. now apply record_held in K.
Qed.

Lemma set_mem w mt a : (length (mem_ w) <= length (mem_ (set_sigma_h w mt a)))%nat.
Proof.
  unfold set_sigma_h. destruct (Z.eqb mt 1018); [lia|].
  destruct (if Z.eqb mt 452 then _ else _); [|lia]. destruct (negb _); [lia|]. apply record_mem.
Qed.

Lemma allocs_facts cs : forall w, let r := allocs w cs in
  ed (fst r) = ed w /\ (length (mem_ (fst r)) = length (mem_ w) + length cs)%nat /\
  (forall a, In a (snd r) -> (length (mem_ w) <= a < length (mem_ (fst r)))%nat).
Proof.
  induction cs as [|c cs IH]; intros w; cbv zeta; cbn [allocs fst snd length].
  - split; [reflexivity|]. split; [lia|]. intros a [].
  - destruct (alloc w c) as [w1 a] eqn:E. injection E as <- <-. 
    specialize (IH {| mem_ := mem_ w ++ [c]; ed := ed w |}). cbv zeta in IH.
    destruct (allocs _ cs) as [w2 l]. cbn [fst snd ed mem_] in *. rewrite app_length in IH. cbn [length] in IH.
    destruct IH as (I1 & I2 & I3). split; [exact I1|]. split; [lia|].
    intros a [<-|H]; [lia|]. apply I3 in H. lia.
Qed.

(** Freshness invariant: a caller-held address stays out of the editor's reach
    unless it is handed over. *)
Lemma step_unheld w o a :
  (a < length (mem_ w))%nat -> ~ In a (held (ed w)) -> (forall mt, o <> Set_ mt a) ->
  (a < length (mem_ (hstep w o)))%nat /\ ~ In a (held (ed (hstep w o))).
Proof.
  intros Ha Hn Ho. destruct o as [mt u f|c|mt b|cs|mt c|b i v]; cbn [hstep].
  - unfold get_sigma_h. destruct (Z.eqb mt 452); [auto|]. destruct (Z.eqb mt 1018); [auto|].
    destruct (lookup mt _); [|auto]. cbn. rewrite app_length. cbn. split; [lia|exact Hn].
  - cbn. rewrite app_length. cbn. split; [lia|exact Hn].
  - split; [pose proof (set_mem w mt b); lia|]. intros H. apply set_held in H as [->|[H|H]]; [|auto|lia].
    now apply (Ho mt).
  - unfold set_chi_h. pose proof (allocs_facts cs (record_h w 1018)) as F. cbv zeta in F.
    destruct (allocs (record_h w 1018) cs) as [w2 l]. cbn [fst snd mem_ ed] in *.
    destruct F as (F1 & F2 & F3). pose proof (record_mem w 1018) as Hm.
    split; [lia|]. unfold held. cbn [ed cur_y orig_y cur_nu orig_nu cur_chi orig_chi osigma]. rewrite F1.
    intros H. assert (In a l \/ In a (held (ed (record_h w 1018)))) as [K|K].
    { unfold held. rewrite !in_app_iff in *. tauto. }
    + apply F3 in K. lia.
    + apply record_held in K as [K|K]; [auto|lia].
  - unfold sum_rewrite_h. cbn [alloc].
    set (w1 := {| mem_ := mem_ w ++ [c]; ed := ed w |}).
    assert (L1 : length (mem_ w1) = S (length (mem_ w))) by (cbn; rewrite app_length; cbn; lia).
    split; [pose proof (set_mem w1 mt (length (mem_ w))); lia|].
    intros H. apply set_held in H as [H|[H|H]]; [lia|exact (Hn H)|lia].
  - unfold write. cbn [mem_ ed]. rewrite upd_nth_length. auto.
Qed.

Lemma run_unheld os : forall w a,
  (a < length (mem_ w))%nat -> ~ In a (held (ed w)) -> ~ gives os a ->
  (a < length (mem_ (hrun w os)))%nat /\ ~ In a (held (ed (hrun w os))).
Proof.
  induction os as [|o os IH]; intros w a Ha Hn Hg; cbn [hrun fold_left]; [auto|].
  destruct (step_unheld w o a Ha Hn) as [H1 H2].
  { intros mt ->. apply Hg. exists mt. now left. }
  apply IH; auto. intros [mt H]. apply Hg. exists mt. now right.
Qed.

(** All held addresses stay valid when only valid addresses are handed over. *)
Lemma private_copy w h1 mt u f a h2 i v :
  mt <> 452%Z -> mt <> 1018%Z ->
  wf_world (hrun w h1) ->
  snd (get_sigma_h (hrun w h1) mt u f) = Some [a] ->
  ~ gives h2 a ->
  let w2 := hrun (fst (get_sigma_h (hrun w h1) mt u f)) h2 in
  view (write w2 a i v) = view w2.
Proof.
  intros N1 N2 Hwf Hg Hno. cbv zeta. apply view_write.
  unfold get_sigma_h in *. apply Z.eqb_neq in N1, N2. rewrite N1, N2 in *.
  destruct (lookup mt _) as [b|]; [|discriminate]. cbn [alloc snd fst] in *. injection Hg as <-.
  apply run_unheld; auto.
  - cbn. rewrite app_length. cbn. lia.
  - cbn [ed]. intros H. apply Hwf in H. lia.
Qed.

(** wf_world is kept by every history whose hand-overs are existing arrays. *)
Fixpoint valid_gives (w : world) (os : list hop) : Prop :=
  match os with
  | [] => True
  | o :: r => match o with Set_ _ a => (a < length (mem_ w))%nat | _ => True end
              /\ valid_gives (hstep w o) r
  end.

Lemma set_wf w mt a : wf_world w -> (a < length (mem_ w))%nat -> wf_world (set_sigma_h w mt a).
Proof.
  intros Hwf Ha. unfold set_sigma_h. destruct (Z.eqb mt 1018); [exact Hwf|].
  destruct (if Z.eqb mt 452 then _ else _) as [old|]; [|exact Hwf].
  destruct (negb _); [exact Hwf|]. intros b Hb. cbn [mem_].
  assert (b = a \/ In b (held (ed (record_h w mt)))) as [->|K].
  { revert Hb. unfold held. cbn [ed cur_y orig_y cur_nu orig_nu cur_chi orig_chi osigma].
    rewrite !in_app_iff. destruct (Z.eqb mt 452).
    - cbn [In]. intros [H|[H|[H|H]]]; intuition.
    - intros [H|H]; [|tauto]. apply replace_snd in H. tauto. }
  - pose proof (record_mem w mt). lia.
  - now apply record_held_lt.
Qed.

Lemma step_wf w o : wf_world w ->
  match o with Set_ _ a => (a < length (mem_ w))%nat | _ => True end -> wf_world (hstep w o).
Proof.
  intros Hwf Ho. destruct o as [mt u f|c|mt b|cs|mt c|b i v]; cbn [hstep].
  - unfold get_sigma_h. destruct (Z.eqb mt 452); [auto|]. destruct (Z.eqb mt 1018); [auto|].
    destruct (lookup mt _) as [x|]; [|auto]. cbn. intros a Ha. cbn in *. rewrite app_length. apply Hwf in Ha. lia.
  - cbn. intros a Ha. cbn in *. rewrite app_length. apply Hwf in Ha. lia.
  - now apply set_wf.
  - unfold set_chi_h. pose proof (allocs_facts cs (record_h w 1018)) as F. cbv zeta in F.
    destruct (allocs (record_h w 1018) cs) as [w2 l]. cbn [fst snd mem_ ed] in *.
    destruct F as (F1 & F2 & F3). intros a. unfold held.
    cbn [ed mem_ cur_y orig_y cur_nu orig_nu cur_chi orig_chi osigma]. rewrite F1.
    intros H. assert (In a l \/ In a (held (ed (record_h w 1018)))) as [K|K].
    { unfold held. rewrite !in_app_iff in *. tauto. }
    + apply F3 in K. lia.
    + apply (record_held_lt w 1018 a Hwf) in K. lia.
  - unfold sum_rewrite_h. cbn [alloc]. apply set_wf.
    + intros a Ha. cbn in *. rewrite app_length. apply Hwf in Ha. lia.
    + cbn. rewrite app_length. cbn. lia.
  - intros a Ha. cbn in *. rewrite upd_nth_length. now apply Hwf.
Qed.

Lemma run_wf os : forall w, wf_world w -> valid_gives w os -> wf_world (hrun w os).
Proof.
  induction os as [|o os IH]; intros w Hwf Hv; cbn [hrun fold_left valid_gives] in *; [exact Hwf|].
  destruct Hv as [H1 H2]. apply IH; auto. now apply step_wf.
Qed.

Lemma private_copy_reach w h1 mt u f a h2 i v :
  wf_world w -> valid_gives w h1 -> mt <> 452%Z -> mt <> 1018%Z ->
  snd (get_sigma_h (hrun w h1) mt u f) = Some [a] -> ~ gives h2 a ->
  let w2 := hrun (fst (get_sigma_h (hrun w h1) mt u f)) h2 in
  view (write w2 a i v) = view w2.
Proof. intros Hwf Hv N1 N2 Hg Hno. apply private_copy; auto. now apply run_wf. Qed.

Local Open Scope nat_scope.
(** Witness world: one reaction, nu-bar, one spectrum; arrays 0..5. *)
Definition ex_world : world :=
  {| mem_ := [[qz 5; qz 6]; [qz 5; qz 6]; [0%Qc; qz 3]; [0%Qc; qz 3]; [qz 1]; [qz 1]];
     ed := {| cur_y := [(102%Z, 0)]; orig_y := [(102%Z, 1)]; cur_nu := Some 2; orig_nu := Some 3;
              cur_chi := [4]; orig_chi := [5]; osigma := [] |} |}.

Lemma ex_world_wf : wf_world ex_world.
Proof. intros a H. cbn in H. cbn. lia. Qed.

(** MT=452: the caller's in-place write changes the table, and the "original"
    recorded by the next set_sigma is the modified array (0 replaced by 1). *)
Lemma nu_alias : exists a,
  snd (get_sigma_h ex_world 452 false (fun l => l)) = Some [a] /\
  view (write ex_world a 0 1%Qc) <> view ex_world /\
  (let w1 := write ex_world a 0 1%Qc in
   let w2 := hrun w1 [New [qz 2; qz 4]; Set_ 452 6] in
   option_map (fun l => map (fun b => map this (content w2 b)) l) (lookup 452%Z (osigma (ed w2)))
   = Some [[1; 3]%Q] /\
   option_map (fun b => map this (content w2 b)) (orig_nu (ed w2)) = Some [0; 3]%Q).
Proof.
  exists 2. split; [reflexivity|]. split.
  - intros H. apply (f_equal (fun v => match v with (_, _, n, _, _, _, _) => option_map (map this) n end)) in H.
    vm_compute in H. discriminate.
  - vm_compute. split; reflexivity.
Qed.

Lemma chi_alias : exists a,
  snd (get_sigma_h ex_world 1018 false (fun l => l)) = Some [a] /\
  view (write ex_world a 0 0%Qc) <> view ex_world.
Proof.
  exists 4. split; [reflexivity|].
  intros H. apply (f_equal (fun v => match v with (_, _, _, _, c, _, _) => map (map this) c end)) in H.
  vm_compute in H. discriminate.
Qed.

(** The array given to set_sigma stays shared with the caller. *)
Lemma set_alias :
  let w := hrun ex_world [New [qz 7; qz 8]; Set_ 102 6] in
  view (write w 6 0 0%Qc) <> view w.
Proof.
  cbv zeta. intros H.
  apply (f_equal (fun v => match v with (y, _, _, _, _, _, _) => map (fun p => map this (snd p)) y end)) in H.
  vm_compute in H. discriminate.
Qed.
