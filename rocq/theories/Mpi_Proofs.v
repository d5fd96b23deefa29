(** Proofs about the parallel writer. *)
From Verif Require Import Text Dec Mpi_Model Mpi_Spec.
From Coq Require Import NArith ZArith FinFun.

Definition on (f : text) (o : op) : bool := eqt f (op_file o).

Lemma do_op_other s o f : on f o = false -> do_op s o f = s f.
Proof. unfold on. destruct o as [g|g c]; cbn; intros ->; reflexivity. Qed.

Lemma do_op_ext s s' o f : s f = s' f -> do_op s o f = do_op s' o f.
Proof. destruct o as [g|g c]; cbn; destruct (eqt f g); intros H; congruence. Qed.

Lemma exec_filter os f : forall s s', s f = s' f -> exec s os f = exec s' (filter (on f) os) f.
Proof.
  induction os as [|o os IH]; intros s s' H; [exact H|]. cbn [exec fold_left filter].
  destruct (on f o) eqn:E.
  - cbn [fold_left]. apply IH. now apply do_op_ext.
  - apply IH. rewrite do_op_other by exact E. exact H.
Qed.

(** Only one process touches a file: its order of operations survives. *)
Lemma interleave_filter f ps s : interleave ps s -> forall r,
  (forall i, i <> r -> filter (on f) (nth i ps []) = []) ->
  filter (on f) s = filter (on f) (nth r ps []).
Proof.
  induction 1 as [ps H|ps1 o p ps2 s H IH]; intros r Hr.
  - rewrite Forall_forall in H. cbn. destruct (nth_in_or_default r ps []) as [K| ->]; [|reflexivity].
    apply H in K. now rewrite K.
  - assert (E : forall i, i <> length ps1 -> nth i (ps1 ++ (o :: p) :: ps2) [] = nth i (ps1 ++ p :: ps2) []).
    { intros i Hi. destruct (Nat.lt_ge_cases i (length ps1)) as [L|L].
      - now rewrite !app_nth1 by exact L.
      - rewrite !app_nth2 by exact L. destruct (i - length ps1) eqn:D; [lia|reflexivity]. }
    assert (E0 : nth (length ps1) (ps1 ++ (o :: p) :: ps2) [] = o :: p)
      by (rewrite app_nth2, Nat.sub_diag by lia; reflexivity).
    assert (E1 : nth (length ps1) (ps1 ++ p :: ps2) [] = p)
      by (rewrite app_nth2, Nat.sub_diag by lia; reflexivity).
    cbn [filter]. rewrite (IH r).
    + destruct (Nat.eq_dec r (length ps1)) as [->|N].
      * rewrite E0, E1. reflexivity.
      * specialize (Hr (length ps1) ltac:(congruence)). rewrite E0 in Hr. cbn [filter] in Hr.
        destruct (on f o); [discriminate|]. now rewrite E.
    + intros i Hi. specialize (Hr i Hi). destruct (Nat.eq_dec i (length ps1)) as [->|N].
      * rewrite E0 in Hr. rewrite E1. cbn [filter] in Hr. destruct (on f o); [discriminate|exact Hr].
      * now rewrite E in Hr.
Qed.

Lemma partial_filter f ps s : partial_run ps s -> forall r,
  (forall i, i <> r -> filter (on f) (nth i ps []) = []) ->
  exists rest, filter (on f) (nth r ps []) = filter (on f) s ++ rest.
Proof.
  intros [s' H] r Hr. apply (interleave_filter f ps _ H r) in Hr. rewrite filter_app in Hr.
  eexists. symmetry. exact Hr.
Qed.

(** Names. *)
Lemma sample_name_inj prefix n m : sample_name prefix n = sample_name prefix m -> n = m.
Proof. unfold sample_name. intros H. apply app_inv_head in H. now apply decN_inj. Qed.

Lemma csv_name_not_sample prefix n mt : sample_name prefix n <> csv_name prefix mt.
Proof.
  unfold sample_name, csv_name. intros H. apply app_inv_head in H.
  assert (K : In "_"%char (decN n)).
  { rewrite H. apply in_or_app. right. cbn. auto. }
  now apply (decN_notin n "_"%char eq_refl).
Qed.

Lemma file_ops_on f g ps : filter (on f) (file_ops g ps) = if eqt f g then file_ops g ps else [].
Proof.
  unfold file_ops. cbn [filter on op_file]. unfold on at 1. cbn [op_file].
  assert (H : filter (on f) (map (App g) ps) = if eqt f g then map (App g) ps else []).
  { induction ps as [|p ps IH]; cbn [map filter].
    - now destruct (eqt f g).
    - unfold on at 1. cbn [op_file]. rewrite IH. now destruct (eqt f g). }
  rewrite H. now destruct (eqt f g).
Qed.

Lemma eqt_false a b : a <> b -> eqt a b = false.
Proof. intros H. destruct (eqt a b) eqn:E; [|reflexivity]. apply eqt_eq in E. congruence. Qed.

Lemma csv_ops_sample prefix csvs n : filter (on (sample_name prefix n)) (csv_ops prefix csvs) = [].
Proof.
  unfold csv_ops. induction csvs as [|c csvs IH]; [reflexivity|]. cbn [map concat].
  rewrite filter_app, IH, app_nil_r, file_ops_on. rewrite eqt_false by apply csv_name_not_sample. reflexivity.
Qed.

Section W.
Variables (prefix : text) (make : N -> option (list text)) (csvs : list (N * list text)).

Lemma loop_ok size rank ns : complete make ns -> snd (loop prefix make size rank ns) = true.
Proof.
  induction ns as [|n ns IH]; intros H; [reflexivity|]. cbn [loop].
  assert (H' : complete make ns) by (intros m Hm; apply H; now right).
  destruct (N.eqb _ _); [|auto]. destruct (make n) eqn:E; [|exfalso; apply (H n); [now left|exact E]].
  specialize (IH H'). destruct (loop prefix make size rank ns). exact IH.
Qed.

(** Operations of one rank on the file of sample [n]. *)
Lemma loop_sample size rank ns n : complete make ns -> NoDup ns ->
  filter (on (sample_name prefix n)) (fst (loop prefix make size rank ns)) =
  if existsb (N.eqb n) ns && N.eqb (n mod size) rank then
    match make n with Some ps => file_ops (sample_name prefix n) ps | None => [] end
  else [].
Proof.
  induction ns as [|m ns IH]; intros Hc Hd; [reflexivity|]. cbn [loop existsb].
  assert (Hc' : complete make ns) by (intros k Hk; apply Hc; now right).
  inversion Hd as [|? ? Hnot Hd']; subst. specialize (IH Hc' Hd').
  destruct (N.eqb n m) eqn:Enm.
  - apply N.eqb_eq in Enm. subst m. cbn [orb].
    assert (X : existsb (N.eqb n) ns = false).
    { destruct (existsb (N.eqb n) ns) eqn:X; [|reflexivity]. apply existsb_exists in X as (k & Hk & Ek).
      apply N.eqb_eq in Ek. subst. contradiction. }
    rewrite X in IH. cbn [andb] in *.
    destruct (N.eqb (n mod size) rank) eqn:Er; [|exact IH].
    destruct (make n) as [ps|] eqn:Em; [|exfalso; apply (Hc n); [now left|exact Em]].
    destruct (loop prefix make size rank ns) as [os ok]. cbn [fst] in *.
    rewrite filter_app, IH, app_nil_r, file_ops_on, eqt_refl. reflexivity.
  - cbn [orb]. destruct (N.eqb (m mod size) rank) eqn:Er; [|exact IH].
    destruct (make m) as [ps|] eqn:Em; [|exfalso; apply (Hc m); [now left|exact Em]].
    destruct (loop prefix make size rank ns) as [os ok]. cbn [fst] in *.
    rewrite filter_app, file_ops_on. rewrite eqt_false; [exact IH|].
    intros E. apply sample_name_inj in E. subst. now rewrite N.eqb_refl in Enm.
Qed.

(** Operations on a file that is no sample file. *)
Lemma loop_other size rank ns f : (forall n, In n ns -> f <> sample_name prefix n) ->
  filter (on f) (fst (loop prefix make size rank ns)) = [].
Proof.
  induction ns as [|m ns IH]; intros H; [reflexivity|]. cbn [loop].
  assert (H' : forall n, In n ns -> f <> sample_name prefix n) by (intros; apply H; now right).
  specialize (IH H'). destruct (N.eqb _ _); [|exact IH]. destruct (make m) as [ps|]; [|reflexivity].
  destruct (loop prefix make size rank ns) as [os ok]. cbn [fst] in *.
  rewrite filter_app, IH, app_nil_r, file_ops_on. rewrite eqt_false; [reflexivity|]. apply H. now left.
Qed.

Lemma rank_prog_eq size rank ns : complete make ns ->
  rank_prog prefix make csvs size rank ns =
  fst (loop prefix make size rank ns) ++ (if N.eqb rank 0 then csv_ops prefix csvs else []).
Proof.
  intros H. unfold rank_prog. pose proof (loop_ok size rank ns H) as K.
  destruct (loop prefix make size rank ns) as [os ok]. cbn [snd fst] in *. subst. cbn [andb].
  destruct (N.eqb rank 0); [reflexivity|now rewrite app_nil_r].
Qed.

Lemma programs_nth size ns i : i < size ->
  nth i (programs prefix make csvs size ns) [] = rank_prog prefix make csvs (N.of_nat size) (N.of_nat i) ns.
Proof.
  intros H. unfold programs.
  rewrite nth_indep with (d' := rank_prog prefix make csvs (N.of_nat size) (N.of_nat 0) ns)
    by (now rewrite map_length, seq_length).
  rewrite (map_nth (fun r => rank_prog prefix make csvs (N.of_nat size) (N.of_nat r) ns)).
  now rewrite seq_nth.
Qed.
Lemma programs_out size ns i : size <= i -> nth i (programs prefix make csvs size ns) [] = [].
Proof. intros H. apply nth_overflow. unfold programs. now rewrite map_length, seq_length. Qed.

Definition owner (size : nat) (n : N) : nat := N.to_nat (n mod N.of_nat size).
Lemma owner_lt size n : 0 < size -> owner size n < size.
Proof. intros H. unfold owner. pose proof (N.mod_lt n (N.of_nat size) ltac:(lia)). lia. Qed.

Lemma sample_ops_of_rank size ns n i : complete make ns -> NoDup ns -> In n ns -> 0 < size ->
  filter (on (sample_name prefix n)) (nth i (programs prefix make csvs size ns) []) =
  if i =? owner size n then
    match make n with Some ps => file_ops (sample_name prefix n) ps | None => [] end
  else [].
Proof.
  intros Hc Hd Hin Hs. pose proof (owner_lt size n Hs) as Ho.
  destruct (Nat.lt_ge_cases i size) as [Hi|Hi].
  - rewrite programs_nth by exact Hi. rewrite rank_prog_eq by exact Hc. rewrite filter_app.
    rewrite loop_sample by assumption.
    assert (X : existsb (N.eqb n) ns = true) by (apply existsb_exists; exists n; split; [exact Hin|apply N.eqb_refl]).
    rewrite X. cbn [andb].
    assert (Y : N.eqb (n mod N.of_nat size) (N.of_nat i) = (i =? owner size n)).
    { unfold owner. apply eq_true_iff_eq. rewrite N.eqb_eq, Nat.eqb_eq. split; intros H; lia. }
    rewrite Y. destruct (N.eqb (N.of_nat i) 0); rewrite ?csv_ops_sample; now rewrite app_nil_r.
  - rewrite programs_out by exact Hi. destruct (i =? owner size n) eqn:E; [apply Nat.eqb_eq in E; lia|reflexivity].
Qed.

Lemma other_ops_of_rank size ns f i : complete make ns -> (forall n, In n ns -> f <> sample_name prefix n) ->
  i < size -> filter (on f) (nth i (programs prefix make csvs size ns) []) =
  if i =? 0 then filter (on f) (csv_ops prefix csvs) else [].
Proof.
  intros Hc Hf Hi. rewrite programs_nth by exact Hi. rewrite rank_prog_eq by exact Hc. rewrite filter_app.
  rewrite loop_other by exact Hf. cbn [app]. destruct i; reflexivity.
Qed.

Lemma is_sample f (ns : list N) : (exists n, In n ns /\ f = sample_name prefix n) \/ (forall n, In n ns -> f <> sample_name prefix n).
Proof.
  induction ns as [|n ns [(m & Hm & E)|H]]; [right; intros n []|left; exists m; split; [now right|exact E]|].
  destruct (eqt f (sample_name prefix n)) eqn:E.
  - apply eqt_eq in E. left. exists n. split; [now left|exact E].
  - right. intros m [<-|Hm]; [|auto]. intros ->. now rewrite eqt_refl in E.
Qed.

Lemma programs_1 ns : programs prefix make csvs 1 ns = [serial prefix make csvs ns].
Proof. reflexivity. Qed.

Lemma filter_complete size ns sched f : complete make ns -> NoDup ns -> 0 < size ->
  interleave (programs prefix make csvs size ns) sched ->
  filter (on f) sched = filter (on f) (serial prefix make csvs ns).
Proof.
  intros Hc Hd Hs Hi.
  assert (Ser : serial prefix make csvs ns = nth 0 (programs prefix make csvs 1 ns) []) by reflexivity.
  destruct (is_sample f ns) as [(n & Hn & ->)|Hf].
  - rewrite (interleave_filter _ _ _ Hi (owner size n)).
    + rewrite sample_ops_of_rank, Nat.eqb_refl by assumption. rewrite Ser.
      rewrite sample_ops_of_rank by (auto; lia). pose proof (owner_lt 1 n ltac:(lia)).
      destruct (0 =? owner 1 n) eqn:E; [reflexivity|]. apply Nat.eqb_neq in E. lia.
    + intros i Hne. rewrite sample_ops_of_rank by assumption. apply Nat.eqb_neq in Hne. now rewrite Hne.
  - rewrite (interleave_filter _ _ _ Hi 0).
    + rewrite other_ops_of_rank by assumption. rewrite Ser. rewrite other_ops_of_rank by (auto; lia). reflexivity.
    + intros i Hne. destruct (Nat.lt_ge_cases i size) as [L|L].
      * rewrite other_ops_of_rank by assumption. apply Nat.eqb_neq in Hne. now rewrite Hne.
      * now rewrite programs_out.
Qed.

Lemma parallel_is_serial size ns sched s f : complete make ns -> NoDup ns -> 0 < size ->
  interleave (programs prefix make csvs size ns) sched ->
  exec s sched f = exec s (serial prefix make csvs ns) f.
Proof.
  intros Hc Hd Hs Hi. rewrite (exec_filter sched f s s eq_refl).
  rewrite (exec_filter (serial prefix make csvs ns) f s s eq_refl).
  now rewrite (filter_complete size ns sched f Hc Hd Hs Hi).
Qed.

(** Partial runs: a sample file is untouched or a prefix of its final content. *)
Lemma exec_app_pieces f ps : forall s c, s f = Some c -> exec s (map (App f) ps) f = Some (c ++ concat ps).
Proof.
  induction ps as [|p ps IH]; intros s c H; cbn [map exec fold_left concat]; [now rewrite app_nil_r|].
  change (fold_left do_op (map (App f) ps) (do_op s (App f p)) f) with (exec (do_op s (App f p)) (map (App f) ps) f).
  rewrite (IH _ (c ++ p)).
  - now rewrite app_assoc.
  - cbn. rewrite eqt_refl, H. reflexivity.
Qed.

Lemma exec_file_ops f ps s : exec s (file_ops f ps) f = Some (concat ps).
Proof.
  unfold file_ops. cbn [exec fold_left]. change (fold_left do_op ?l ?x) with (exec x l).
  rewrite exec_app_pieces with (c := []); [reflexivity|]. cbn. now rewrite eqt_refl.
Qed.

Lemma crash_prefix size ns s0 s n ps : complete make ns -> NoDup ns -> 0 < size ->
  partial_run (programs prefix make csvs size ns) s -> In n ns -> make n = Some ps ->
  let f := sample_name prefix n in
  exec s0 s f = s0 f \/ exists k, exec s0 s f = Some (concat (firstn k ps)).
Proof.
  intros Hc Hd Hs Hp Hn Hm. cbv zeta. set (f := sample_name prefix n).
  rewrite (exec_filter s f s0 s0 eq_refl).
  destruct (partial_filter f _ s Hp (owner size n)) as [rest Hr].
  { intros i Hne. unfold f. rewrite sample_ops_of_rank by assumption. apply Nat.eqb_neq in Hne. now rewrite Hne. }
  unfold f in Hr at 1. rewrite sample_ops_of_rank, Nat.eqb_refl, Hm in Hr by assumption.
  fold f in Hr. destruct (filter (on f) s) as [|o os]; [now left|right].
  unfold file_ops in Hr. cbn [app] in Hr. injection Hr as <- Hr.
  exists (length os).
  assert (E : os = map (App f) (firstn (length os) ps)).
  { rewrite <- firstn_map, Hr. now rewrite firstn_app, Nat.sub_diag, firstn_all, firstn_O, app_nil_r. }
  rewrite E at 1. apply exec_file_ops.
Qed.

(** The serial run writes every sample's content, and completes iff every
    sample can be built. *)
Lemma serial_content ns s n ps : complete make ns -> NoDup ns -> In n ns -> make n = Some ps ->
  exec s (serial prefix make csvs ns) (sample_name prefix n) = Some (concat ps).
Proof.
  intros Hc Hd Hn Hm. set (f := sample_name prefix n).
  rewrite (exec_filter _ f s s eq_refl).
  assert (Ser : serial prefix make csvs ns = nth 0 (programs prefix make csvs 1 ns) []) by reflexivity.
  rewrite Ser. unfold f. rewrite sample_ops_of_rank by (auto; lia).
  pose proof (owner_lt 1 n ltac:(lia)). destruct (0 =? owner 1 n) eqn:E; [|apply Nat.eqb_neq in E; lia].
  rewrite Hm. apply exec_file_ops.
Qed.

Lemma loop_completes_iff size rank ns :
  snd (loop prefix make size rank ns) = true <->
  (forall n, In n ns -> (n mod size)%N = rank -> make n <> None).
Proof.
  induction ns as [|n ns IH]; cbn [loop]; [split; [intros _ n []|reflexivity]|].
  destruct (N.eqb_spec (n mod size) rank) as [E|E].
  - destruct (make n) as [ps|] eqn:Em.
    + destruct (loop prefix make size rank ns) as [os ok]. cbn [snd] in *. rewrite IH. split.
      * intros H m [<-|Hm]; [congruence|auto].
      * intros H m Hm. apply H. now right.
    + split; [discriminate|]. intros H. exfalso. apply (H n); [now left|exact E|exact Em].
  - rewrite IH. split.
    + intros H m [<-|Hm]; [congruence|auto].
    + intros H m Hm. apply H. now right.
Qed.
End W.

(** Availability. *)
Lemma available_iff tables n : available tables n = true <-> forall t, In t tables -> In n t.
Proof.
  unfold available. rewrite forallb_forall. split; intros H t Ht.
  - apply H in Ht. apply existsb_exists in Ht as (m & Hm & E). apply N.eqb_eq in E. now subst.
  - apply existsb_exists. exists n. split; [auto|apply N.eqb_refl].
Qed.

Definition upto (k : nat) : list N := map N.of_nat (seq 0 k).
Lemma upto_In k n : In n (upto k) <-> N.to_nat n < k.
Proof.
  unfold upto. rewrite in_map_iff. split.
  - intros (i & <- & Hi). apply in_seq in Hi. lia.
  - intros H. exists (N.to_nat n). split; [lia|]. apply in_seq. lia.
Qed.
Lemma upto_NoDup k : NoDup (upto k).
Proof.
  unfold upto. apply Injective_map_NoDup; [intros a b; lia|apply seq_NoDup].
Qed.
