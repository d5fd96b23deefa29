(** C64: cross sections read from an ACE table. *)
From Coq Require Import ZArith QArith Qcanon List Bool Arith Lia.
From Verif Require Import Num Neut_Model Neut_Spec Neut_Proofs NeutSum_Proofs NeutAll_Proofs NeutFinal_Proofs NeutRun_Proofs.
From Verif Require AceEdit_Model AceEdit_Spec Sums_Spec Sums_Proofs.
Import ListNotations.
Local Open Scope Z_scope.
Local Notation lookup := AceEdit_Model.lookup.

(** What the table gives for an MT is read: energies in eV, values; negative values of
    elastic scattering and of listed reactions become 0. *)
Theorem C64_read : forall D A (R : readers D A) a c n x m f vs, says a c -> apart a c -> listed_once c -> from_ace R a = Some (n, x) -> gives c m f vs ->
  exists r, read_as n x m r (energies c f (length vs)) vs.
Proof. intros D A R a c n x m f vs S P O F G. destruct (whole_ok R a c S P O n x F) as (d0 & d & a1 & W). exact (all_read R a c n x d0 d a1 W m f vs G). Qed.
Print Assumptions C64_read.

(** A listed reaction has its Q value (in eV) and frame, and its values are the words of
    XSS, as it is left, at the place the file says. *)
Theorem C64_channel : forall D A (R : readers D A) a c n x i h, says a c -> apart a c -> listed_once c -> from_ace R a = Some (n, x) ->
  nth_error (c_channels c) i = Some h -> ~ ignored (c_mt h) ->
  exists r p, lookup (c_mt h) (n_reactions n) = Some r /\ r_q r = (c_q h * qz 1000000)%Qc /\ (r_cm r = true <-> c_ty h < 0) /\
    values_at a c (S i) p /\ stands x p (map clip (c_values h)) /\ elements x (r_xs r) = map clip (c_values h).
Proof.
  intros D A R a c n x i h S P O F E Ig. destruct (whole_ok R a c S P O n x F) as (d0 & d & a1 & W). destruct (channel_read R a c n x d0 d a1 W i h E Ig) as (r & p & (H1 & _ & _ & H2) & Q & Cm & V & _ & _).
  exists r, p. repeat (split; auto). pose proof (w_inv _ _ _ _ _ _ _ _ W) as I. assert (Hi : (i < length (c_channels c))%nat) by (eapply err_lt; eauto).
  pose proof (values_cleared a c S (Datatypes.S i) (Datatypes.S (length (c_channels c))) a1 p ltac:(lia) ltac:(lia) I V) as St. cbn [values_of] in St. rewrite E in St. rewrite (w_xss _ _ _ _ _ _ _ _ W). exact St.
Qed.
Print Assumptions C64_channel.

(** Nothing else of XSS is changed. *)
Theorem C64_xss : forall D A (R : readers D A) a c n x, says a c -> apart a c -> listed_once c -> from_ace R a = Some (n, x) -> cleared a c x /\ n_energy n = energies c 0 (length (c_grid c)).
Proof. intros D A R a c n x S P O F. destruct (whole_ok R a c S P O n x F) as (d0 & d & a1 & W). split; [exact (left_cleared R a c n x d0 d a1 W)|exact (w_energy _ _ _ _ _ _ _ _ W)]. Qed.
Print Assumptions C64_xss.
Theorem C64_xss_kept : forall D A (R : readers D A) a c n x, says a c -> apart a c -> listed_once c -> from_ace R a = Some (n, x) ->
  (forall k v, In v (values_of c k) -> (0 <= v)%Qc) -> x = xss a.
Proof. intros D A R a c n x S P O F H. exact (unchanged a c S x (proj1 (C64_xss D A R a c n x S P O F)) H). Qed.
Print Assumptions C64_xss_kept.

(** Just these reactions: those given, and the sums made, as far as a part is given. *)
Theorem C64_reactions : forall D A (R : readers D A) a c n x ms m, says a c -> apart a c -> listed_once c -> lists_photons a c ms -> from_ace R a = Some (n, x) ->
  (exists r, lookup m (n_reactions n) = Some r) <-> given c m \/ (summed ms m /\ exists k, Sums_Spec.within m k /\ given c k).
Proof. intros D A R a c n x ms m S P O L F. destruct (whole_ok R a c S P O n x F) as (d0 & d & a1 & W). exact (all_present R a c n x d0 d a1 W ms m L). Qed.
Print Assumptions C64_reactions.

(** A reaction not given is the sum of its components, on the grid from the first energy
    of any of them. *)
Theorem C64_sums : forall D A (R : readers D A) a c n x m r, says a c -> apart a c -> listed_once c -> resolved c -> from_ace R a = Some (n, x) ->
  ~ given c m -> lookup m (n_reactions n) = Some r -> exists l, Sums_Spec.components (given c) m l /\ sums c x r l.
Proof. intros D A R a c n x m r S P O Re F. destruct (whole_ok R a c S P O n x F) as (d0 & d & a1 & W). exact (all_sums R a c n x d0 d a1 W m r Re). Qed.
Print Assumptions C64_sums.

(** Redundant are absorption and what has components other than itself. *)
Theorem C64_flags : forall D A (R : readers D A) a c n x m r, says a c -> apart a c -> listed_once c -> from_ace R a = Some (n, x) ->
  lookup m (n_reactions n) = Some r -> (r_redundant r = true <-> m = 101 \/ ~ Sums_Spec.finest (given c) m).
Proof. intros D A R a c n x m r S P O F. destruct (whole_ok R a c S P O n x F) as (d0 & d & a1 & W). exact (all_flags R a c n x d0 d a1 W m r). Qed.
Print Assumptions C64_flags.

(** A table of cross sections alone is always read. *)
Theorem C64_succeeds : forall D A (R : readers D A) a c, says a c -> apart a c -> listed_once c -> bare a c -> (forall m f vs, gives c m f vs -> vs <> []) ->
  exists n x, from_ace R a = Some (n, x).
Proof. exact @succeeds. Qed.
Print Assumptions C64_succeeds.
(** Any content can be laid out as such a table. *)
Theorem C64_every_content : forall c, consistent c -> says (lay c) c /\ apart (lay c) c /\ bare (lay c) c.
Proof. intros c K. split; [|split]; [now apply lay_says|now apply lay_apart|now apply lay_bare]. Qed.
Print Assumptions C64_every_content.

(** Not every table is: photons of MT 3, which is not itself listed, with no absorption at
    all (UnboundLocalError). *)
Theorem C64_nonelastic_photons_fail : forall D A (R : readers D A) a c ms t, says a c -> apart a c -> listed_once c -> lists_photons a c ms ->
  In t ms -> t / 1000 = 3 -> (forall v, In v (c_abs c) -> v = 0%Qc) -> ~ given c 3 -> (exists k, Sums_Spec.within 3 k /\ given c k) -> from_ace R a = None.
Proof. intros D A R a c ms t S P O. exact (nonelastic_fails R a c S P O ms t). Qed.
Print Assumptions C64_nonelastic_photons_fail.

(** ** A table *)
Definition ex_readers : readers unit unit := mkReaders unit unit (fun _ _ _ _ _ _ => 0%Qc) (fun _ _ _ _ => None) (fun _ => true) tt (fun _ _ _ => None) (fun _ _ => tt) (fun _ => None).
(** Elastic scattering, (n,gamma), two levels of (n,p), gas production. *)
Definition ex_c : content := mkContent [qz 1; qz 2; qz 3] [qz 10; qz 20; qz 30] [qz 1; qz 3; qz 6] [qz 5; qz (-6); qz 7]
  [mkChannel 102 (qz 7) 0 0 [qz 1; qz 1; qz (-1)]; mkChannel 600 (qz (-1)) 0 1 [qz 2; qz 3]; mkChannel 601 (qz (-2)) (-1) 2 [qz 4]; mkChannel 203 (qz 0) 0 0 [qz 9; qz 9; qz 9]].
Lemma ex_consistent : consistent ex_c.
Proof. split; [cbn; auto|]. intros h [<-|[<-|[<-|[<-|[]]]]]; cbn; lia. Qed.
Lemma ex_once : listed_once ex_c.
Proof. unfold listed_once. cbn. repeat constructor; cbn; lia. Qed.
Lemma ex_says : says (lay ex_c) ex_c. Proof. apply C64_every_content, ex_consistent. Qed.
Lemma ex_apart : apart (lay ex_c) ex_c. Proof. apply C64_every_content, ex_consistent. Qed.
Lemma ex_bare : bare (lay ex_c) ex_c. Proof. apply C64_every_content, ex_consistent. Qed.
Lemma ex_gives m f vs : gives ex_c m f vs -> (m, f, vs) = (1, 0%nat, [qz 10; qz 20; qz 30]) \/ (m, f, vs) = (2, 0%nat, [clip (qz 5); clip (qz (-6)); clip (qz 7)]) \/
  (m, f, vs) = (101, 0%nat, [qz 1; qz 3; qz 6]) \/ (m, f, vs) = (102, 0%nat, [clip (qz 1); clip (qz 1); clip (qz (-1))]) \/
  (m, f, vs) = (600, 1%nat, [clip (qz 2); clip (qz 3)]) \/ (m, f, vs) = (601, 2%nat, [clip (qz 4)]).
Proof.
  intros [(-> & -> & ->)|[(-> & -> & ->)|[(-> & -> & -> & _)|(h & Ih & Ig & -> & -> & ->)]]]; auto.
  destruct Ih as [<-|[<-|[<-|[<-|[]]]]]; cbn [c_mt c_first c_values map]; auto 10. exfalso. apply Ig. left. cbn. lia.
Qed.
Lemma ex_full m f vs : gives ex_c m f vs -> vs <> [].
Proof. intros G. apply ex_gives in G. decompose [or] G; match goal with E : (_, _, _) = _ |- _ => inversion E; discriminate end. Qed.
Lemma ex_read : exists n x, from_ace ex_readers (lay ex_c) = Some (n, x).
Proof. exact (C64_succeeds _ _ ex_readers _ _ ex_says ex_apart ex_once ex_bare ex_full). Qed.
Lemma ex_resolved : resolved ex_c.
Proof.
  unfold resolved. set (g := energies ex_c 0 _). assert (Eg : g = [qz 1 * qz 1000000; qz 2 * qz 1000000; qz 3 * qz 1000000]%Qc) by reflexivity. rewrite Eg. clear g Eg. split.
  - intros i j H. cbn [length] in H. assert (C : (i = 0 /\ j = 1 \/ i = 0 /\ j = 2 \/ i = 1 /\ j = 2)%nat) by lia.
    destruct C as [[-> ->]|[[-> ->]|[-> ->]]]; cbn [nth]; apply qltb_lt; reflexivity.
  - intros m f vs G. split; [eapply ex_full; eauto|]. intros j Hj. cbn [length] in Hj.
    assert (F : forall u v, (u < 3)%nat -> (v < 3)%nat -> u <> v -> AceEdit_Spec.far (nth u [qz 1 * qz 1000000; qz 2 * qz 1000000; qz 3 * qz 1000000]%Qc 0%Qc) (nth v [qz 1 * qz 1000000; qz 2 * qz 1000000; qz 3 * qz 1000000]%Qc 0%Qc)).
    { intros u v Hu Hv N. unfold AceEdit_Spec.far. assert (Cu : (u = 0 \/ u = 1 \/ u = 2)%nat) by lia. assert (Cv : (v = 0 \/ v = 1 \/ v = 2)%nat) by lia.
      destruct Cu as [->|[->| ->]]; destruct Cv as [->|[->| ->]]; try congruence; cbn [nth]; (split; [|apply qleb_le; reflexivity]);
        first [left; apply qltb_lt; reflexivity | right; apply qltb_lt; reflexivity]. }
    assert (B : (f < 3 /\ f + length vs - 1 < 3)%nat) by (apply ex_gives in G; decompose [or] G; match goal with E : (_, _, _) = _ |- _ => inversion E; cbn; lia end).
    split; intros N; apply F; lia.
Qed.
Lemma ex_photons : lists_photons (lay ex_c) ex_c [].
Proof. split; [reflexivity|]. split; [|cbn; lia]. exists [], (xss (lay ex_c)). split; reflexivity. Qed.

Example C64_read_hypotheses_met : exists n x, from_ace ex_readers (lay ex_c) = Some (n, x) /\ says (lay ex_c) ex_c /\ apart (lay ex_c) ex_c /\ listed_once ex_c /\
  gives ex_c 102 0 [qz 1; qz 1; 0%Qc] /\ gives ex_c 2 0 [qz 5; 0%Qc; qz 7].
Proof.
  destruct ex_read as (n & x & E). exists n, x. split; [exact E|]. split; [apply ex_says|]. split; [apply ex_apart|]. split; [apply ex_once|]. split.
  - right. right. right. eexists. split; [left; reflexivity|]. cbn [c_mt c_first c_values]. split; [unfold ignored; lia|]. repeat split.
  - right. left. repeat split.
Qed.
Example C64_channel_hypotheses_met : nth_error (c_channels ex_c) 2 = Some (mkChannel 601 (qz (-2)) (-1) 2 [qz 4]) /\ ~ ignored 601.
Proof. split; [reflexivity|unfold ignored; lia]. Qed.
(** No negative value: XSS is left as it was. *)
Definition ex_c0 : content := mkContent [qz 1; qz 2] [qz 10; qz 20] [qz 1; qz 3] [qz 5; qz 6] [mkChannel 102 (qz 7) 0 0 [qz 1; qz 1]].
Example C64_xss_kept_hypotheses_met : consistent ex_c0 /\ listed_once ex_c0 /\ (forall k v, In v (values_of ex_c0 k) -> (0 <= v)%Qc) /\ forall m f vs, gives ex_c0 m f vs -> vs <> [].
Proof.
  split; [split; [cbn; auto|intros h [<-|[]]; cbn; lia]|]. split; [unfold listed_once; cbn; repeat constructor; cbn; lia|]. split.
  - intros [|[|k]] v; cbn [values_of ex_c0 c_channels nth_error c_elastic c_values In]; [intros [<-|[<-|[]]]; apply qleb_le; reflexivity|intros [<-|[<-|[]]]; apply qleb_le; reflexivity|destruct k; intros []].
  - intros m f vs [(_ & _ & ->)|[(_ & _ & ->)|[(_ & _ & -> & _)|(h & [<-|[]] & _ & _ & _ & ->)]]]; discriminate.
Qed.
(** (n,p) is made from its levels, 203 is left out, total is redundant, 102 is not. *)
Example C64_reactions_hypotheses_met : lists_photons (lay ex_c) ex_c [] /\ ~ given ex_c 103 /\ summed [] 103 /\ Sums_Spec.within 103 600 /\ given ex_c 600 /\ ~ given ex_c 203 /\ ~ given ex_c 3.
Proof.
  split; [apply ex_photons|]. assert (N : forall m, m = 103 \/ m = 203 \/ m = 3 -> ~ given ex_c m).
  { intros m Hm (f & vs & G). apply ex_gives in G. decompose [or] G; match goal with E : (_, _, _) = _ |- _ => inversion E; lia end. }
  split; [apply N; auto|]. split; [right; left; lia|]. split; [apply Sums_Proofs.within_part; unfold Sums_Spec.part; lia|]. split; [|split; apply N; auto].
  exists 1%nat, [qz 2; qz 3]. right. right. right. exists (mkChannel 600 (qz (-1)) 0 1 [qz 2; qz 3]). split; [cbn; auto|]. cbn [c_mt c_first c_values]. split; [unfold ignored; lia|]. repeat split.
Qed.
Definition shown (n : @neutron unit unit) (x : list Qc) (m : Z) : option (list Q * bool) := option_map (fun r => (map this (elements x (r_xs r)), r_redundant r)) (lookup m (n_reactions n)).
Example C64_sums_hypotheses_met : resolved ex_c /\
  option_map (fun o => map (shown (fst o) (snd o)) [1; 2; 101; 102; 103; 203; 600; 601]) (from_ace ex_readers (lay ex_c)) =
  Some [Some ([10#1; 20#1; 30#1], true); Some ([5#1; 0#1; 7#1], false); Some ([1#1; 3#1; 6#1], true); Some ([1#1; 1#1; 0#1], false); Some ([2#1; 7#1], true); None; Some ([2#1; 3#1], false); Some ([4#1], false)]%Q.
Proof. split; [apply ex_resolved|]. vm_compute. reflexivity. Qed.
(** Photons of MT 3 in a table without absorption. *)
Definition ex_c3 : content := mkContent [qz 1; qz 2] [qz 10; qz 20] [qz 0; qz 0] [qz 10; qz 20] [mkChannel 51 (qz 7) 0 1 [qz 1]].
Definition ex_a3 : ace := mkAce (fun i => match i with 6%nat => 1 | _ => nxs (lay ex_c3) i end) (fun i => match i with 13%nat => 17 | _ => jxs (lay ex_c3) i end) (xss (lay ex_c3) ++ [qz 3001]).
(** Words put behind leave what a table says. *)
Lemma behind a c nxs' jxs' w : (forall i, (i = 3 \/ i = 4)%nat -> nxs' i = nxs a i) -> (forall i, (1 <= i <= 8)%nat -> jxs' i = jxs a i) -> says a c -> says (mkAce nxs' jxs' (xss a ++ w)) c.
Proof.
  intros Hn Hj S. assert (K : forall p l, stands (xss a) p l -> stands (xss a ++ w) p l).
  { intros p l (u & v & E & L). exists u, (v ++ w). split; [rewrite E, <- !app_assoc; reflexivity|exact L]. }
  split; cbn [nxs jxs xss].
  - apply (s_lengths _ _ S).
  - rewrite Hn, Hj by lia. split; [apply (s_grid _ _ S)|apply K, (s_grid _ _ S)].
  - rewrite Hn by lia. apply (s_count _ _ S).
  - intros i r E. destruct (s_channel _ _ S i r E) as (H1 & H2 & H3 & H4 & loc & H5 & H6). rewrite !Hj by lia. repeat (split; [auto|]). exists loc. auto.
Qed.
Lemma behind_valued a c nxs' jxs' w p : says a c -> (forall i, (i = 3 \/ i = 4)%nat -> nxs' i = nxs a i) -> (forall i, (1 <= i <= 8)%nat -> jxs' i = jxs a i) -> valued (mkAce nxs' jxs' (xss a ++ w)) c p -> valued a c p.
Proof.
  intros S Hn Hj (k & q & Hk & V & B). destruct (values_stand a c S k Hk) as (q' & V' & St). exists k, q. split; [exact Hk|]. split; [|exact B].
  destruct k as [|i]; cbn [values_at] in *; [now rewrite <- Hj by lia|]. destruct V' as (loc' & H1 & ->). destruct V as (loc & H2 & ->). cbn [xss jxs] in *. rewrite Hj in H2 by lia. rewrite (Hj 7%nat) by lia.
  assert (H3 : stands (xss a ++ w) (jxs a 6 + Z.of_nat i) [qz loc']) by (destruct H1 as (u & v & E & L); exists u, (v ++ w); split; [rewrite E, <- !app_assoc; reflexivity|exact L]).
  pose proof (stands_one _ _ _ _ _ _ H2 H3) as E. apply qz_inj in E. subst loc'. exists loc. split; auto.
Qed.
Lemma ex_consistent3 : consistent ex_c3.
Proof. split; [cbn; auto|intros h [<-|[]]; cbn; lia]. Qed.
Example C64_nonelastic_hypotheses_met : says ex_a3 ex_c3 /\ apart ex_a3 ex_c3 /\ listed_once ex_c3 /\ lists_photons ex_a3 ex_c3 [3001] /\ In 3001 [3001] /\ 3001 / 1000 = 3 /\ (forall v, In v (c_abs ex_c3) -> v = 0%Qc) /\ ~ given ex_c3 3 /\
  Sums_Spec.within 3 51 /\ given ex_c3 51.
Proof.
  destruct (C64_every_content ex_c3 ex_consistent3) as (S & P & B).
  assert (Hn : forall i, (i = 3 \/ i = 4)%nat -> nxs ex_a3 i = nxs (lay ex_c3) i) by (intros i [->| ->]; reflexivity).
  assert (Hj : forall i, (1 <= i <= 8)%nat -> jxs ex_a3 i = jxs (lay ex_c3) i) by (intros i Hi; do 9 (destruct i as [|i]; [try lia; reflexivity|]); lia).
  assert (V : forall p, valued ex_a3 ex_c3 p -> valued (lay ex_c3) ex_c3 p) by (intros p; apply (behind_valued (lay ex_c3) ex_c3 _ _ [qz 3001] p S Hn Hj)).
  split; [exact (behind (lay ex_c3) ex_c3 _ _ [qz 3001] Hn Hj S)|]. split.
  - split; [intros p Hp Vp; apply V in Vp; revert Vp; apply (a_grid _ _ P); exact Hp|].
    intros i Hi. destruct (a_lists _ _ P i Hi) as (A1 & A2 & A3 & A4 & A5). rewrite !Hj by lia. split; [auto|]. split; [auto|]. split; [auto|]. split; [auto|].
    intros p Vp. assert (Vp' : values_at (lay ex_c3) ex_c3 (Datatypes.S i) p).
    { destruct Vp as (loc & H & ->). rewrite (Hj 7%nat) by lia. rewrite (Hj 6%nat) in H by lia. destruct (s_channel _ _ S i (nth i (c_channels ex_c3) (mkChannel 0 0 0 0 []))) as (_ & _ & _ & _ & loc' & H5 & _); [now apply nth_error_nth'|].
      assert (H6 : stands (xss ex_a3) (jxs (lay ex_c3) 6 + Z.of_nat i) [qz loc']) by (destruct H5 as (u & v & E & L); exists u, (v ++ [qz 3001]); split; [unfold ex_a3; cbn [xss]; rewrite E, <- !app_assoc; reflexivity|exact L]).
      pose proof (stands_one _ _ _ _ _ _ H H6) as E. apply qz_inj in E. subst loc'. exists loc. auto. }
    destruct (A5 p Vp') as [B1 B2]. split; auto.
  - split; [unfold listed_once; cbn; repeat constructor; cbn; lia|]. split.
    + split; [reflexivity|]. split; [exists (xss (lay ex_c3)), []; split; reflexivity|]. cbn [length jxs ex_a3]. intros p Hp Vp. apply V in Vp. apply (lay_valued ex_c3 ex_consistent3) in Vp.
      destruct Vp as [Vp|([|[|i]] & h & E & Vp)]; [cbn in Vp; lia|cbn in Vp; lia|discriminate|discriminate].
    + split; [cbn; auto|]. split; [reflexivity|]. split; [intros v [<-|[<-|[]]]; reflexivity|]. split.
      * intros (f & vs & [G|[G|[G|(h & [<-|[]] & _ & G & _)]]]); cbn in G; lia.
      * split; [apply (Sums_Spec.w_step 3 4); [apply Sums_Proofs.within_part|]; unfold Sums_Spec.part; lia|].
        exists 1%nat, [qz 1]. right. right. right. exists (mkChannel 51 (qz 7) 0 1 [qz 1]). split; [cbn; auto|]. cbn [c_mt c_first c_values]. split; [unfold ignored; lia|]. repeat split.
Qed.

(** ** What does not hold *)
(** The values read need not be found in the file: a negative value has become 0. *)
Theorem C64_found_in_file_refuted : exists n x r, from_ace ex_readers (lay ex_c) = Some (n, x) /\ lookup 102 (n_reactions n) = Some r /\ ~ exists p, stands (xss (lay ex_c)) p (elements x (r_xs r)).
Proof.
  destruct ex_read as (n & x & F). destruct (C64_channel _ _ ex_readers _ _ n x 0 _ ex_says ex_apart ex_once F eq_refl) as (r & p & L & _ & _ & _ & _ & E); [unfold ignored; cbn; lia|].
  exists n, x, r. split; [exact F|]. split; [exact L|]. intros (q & H). rewrite E in H. apply stands_iff in H as (Q0 & Q1 & H).
  pose proof (H 0%nat ltac:(cbn; lia)) as H0. pose proof (H 1%nat ltac:(cbn; lia)) as H1. pose proof (H 2%nat ltac:(cbn; lia)) as H2. cbn [map c_values nth_error] in H0, H1, H2.
  change (length (map clip (c_values (mkChannel 102 (qz 7) 0 0 [qz 1; qz 1; qz (-1)])))) with 3%nat in Q1. change (length (xss (lay ex_c))) with 47%nat in Q1.
  apply (f_equal (option_map this)) in H0, H1, H2. 
  assert (K : forallb (fun j => negb (match option_map this (nth_error (xss (lay ex_c)) j), option_map this (nth_error (xss (lay ex_c)) (j + 1)), option_map this (nth_error (xss (lay ex_c)) (j + 2)) with
      | Some u, Some v, Some w => Qeq_bool u 1 && Qeq_bool v 1 && Qeq_bool w 0 | _, _, _ => false end)) (seq 0 47) = true) by (vm_compute; reflexivity).
  rewrite forallb_forall in K. specialize (K (Z.to_nat q) ltac:(apply in_seq; lia)). replace (Z.to_nat q + 0)%nat with (Z.to_nat q) in H0 by lia. rewrite H0, H1, H2 in K. vm_compute in K. discriminate.
Qed.
Print Assumptions C64_found_in_file_refuted.

(** Total and absorption keep negative values. *)
Definition ex_neg : content := mkContent [qz 1; qz 2] [qz 10; qz 20] [qz (-1); qz 3] [qz 11; qz 17] [mkChannel 102 (qz 7) 0 0 [qz (-1); qz 3]].
Theorem C64_nonnegative_refuted : exists n x r, from_ace ex_readers (lay ex_neg) = Some (n, x) /\ lookup 101 (n_reactions n) = Some r /\ exists v, In v (elements x (r_xs r)) /\ (v < 0)%Qc.
Proof.
  assert (K : consistent ex_neg) by (split; [cbn; auto|intros h [<-|[]]; cbn; lia]). assert (O : listed_once ex_neg) by (unfold listed_once; cbn; repeat constructor; cbn; lia).
  destruct (C64_every_content _ K) as (S & P & B).
  destruct (C64_succeeds _ _ ex_readers _ _ S P O B) as (n & x & F).
  { intros m f vs [(_ & _ & ->)|[(_ & _ & ->)|[(_ & _ & -> & _)|(h & [<-|[]] & _ & _ & _ & ->)]]]; discriminate. }
  destruct (C64_read _ _ ex_readers _ _ n x 101 0 [qz (-1); qz 3] S P O F) as (r & L & _ & _ & V).
  { right. right. left. repeat split. exists (qz 3). split; [cbn; auto|discriminate]. }
  exists n, x, r. split; [exact F|]. split; [exact L|]. rewrite V. exists (qz (-1)). split; [cbn; auto|]. apply qltb_lt. reflexivity.
Qed.
Print Assumptions C64_nonnegative_refuted.

(** An energy less than 1e-5 below a threshold counts as the threshold: a sum takes the
    first value there too. *)
Definition ex_near : content := mkContent [qz 1; qc 1000001 1000000; qz 2] [qz 10; qz 10; qz 10] [qz 0; qz 0; qz 0] [qz 5; qz 5; qz 5]
  [mkChannel 600 (qz 0) 0 0 [qz 1; qz 1; qz 1]; mkChannel 601 (qz 0) 0 1 [qz 4; qz 4]].
Theorem C64_near_threshold_refuted : exists n x r, says (lay ex_near) ex_near /\ apart (lay ex_near) ex_near /\ listed_once ex_near /\ AceEdit_Spec.increasing (energies ex_near 0 3) /\
  from_ace ex_readers (lay ex_near) = Some (n, x) /\ Sums_Spec.components (given ex_near) 103 [600; 601] /\ lookup 103 (n_reactions n) = Some r /\ ~ sums ex_near x r [600; 601].
Proof.
  assert (K : consistent ex_near) by (split; [cbn; auto|intros h [<-|[<-|[]]]; cbn; lia]). assert (O : listed_once ex_near) by (unfold listed_once; cbn; repeat constructor; cbn; lia).
  destruct (C64_every_content _ K) as (S & P & B).
  assert (G : forall m f vs, gives ex_near m f vs -> (m = 1 \/ m = 2 \/ (m = 600 /\ f = 0%nat /\ vs = [clip (qz 1); clip (qz 1); clip (qz 1)]) \/ (m = 601 /\ f = 1%nat /\ vs = [clip (qz 4); clip (qz 4)])) /\ vs <> []).
  { intros m f vs [(-> & _ & ->)|[(-> & _ & ->)|[(_ & _ & _ & v & Iv & Nv)|(h & [<-|[<-|[]]] & _ & -> & -> & ->)]]].
    - split; [auto|discriminate].
    - split; [auto|discriminate].
    - exfalso. apply Nv. destruct Iv as [<-|[<-|[<-|[]]]]; reflexivity.
    - split; [right; right; left; auto|discriminate].
    - split; [right; right; right; auto|discriminate]. }
  assert (G600 : gives ex_near 600 0 [qz 1; qz 1; qz 1]).
  { right. right. right. exists (mkChannel 600 (qz 0) 0 0 [qz 1; qz 1; qz 1]). split; [cbn; auto|]. cbn [c_mt c_first c_values]. split; [unfold ignored; lia|]. repeat split. }
  assert (G601 : gives ex_near 601 1 [qz 4; qz 4]).
  { right. right. right. exists (mkChannel 601 (qz 0) 0 1 [qz 4; qz 4]). split; [cbn; auto|]. cbn [c_mt c_first c_values]. split; [unfold ignored; lia|]. repeat split. }
  destruct (C64_succeeds _ _ ex_readers _ _ S P O B (fun m f vs H => proj2 (G m f vs H))) as (n & x & F).
  assert (V : option_map (fun o => shown (fst o) (snd o) 103) (from_ace ex_readers (lay ex_near)) = Some (Some ([5#1; 5#1; 5#1]%Q, true))) by (vm_compute; reflexivity).
  rewrite F in V. cbn [option_map fst snd] in V. unfold shown in V. destruct (lookup 103 (n_reactions n)) as [r|] eqn:L; [|discriminate]. cbn [option_map] in V. inversion V as [[V1 V2]]. clear V.
  exists n, x, r. split; [exact S|]. split; [exact P|]. split; [exact O|]. split.
  { intros i j H. change (length (energies ex_near 0 3)) with 3%nat in H. assert (C : (i = 0 /\ j = 1 \/ i = 0 /\ j = 2 \/ i = 1 /\ j = 2)%nat) by lia. destruct C as [[-> ->]|[[-> ->]|[-> ->]]]; apply qltb_lt; vm_compute; reflexivity. }
  split; [exact F|]. split.
  { split; [repeat constructor; cbn; lia|]. 
    assert (Fin : forall m, 600 <= m <= 601 -> Sums_Spec.finest (given ex_near) m).
    { intros m Hm. split; [assert (C : m = 600 \/ m = 601) by lia; destruct C as [->| ->]; eexists; eexists; eauto|]. intros k Wk _. destruct (Sums_Proofs.within_down _ _ Wk) as [E|(b & Pb & _)]; [exact E|]. unfold Sums_Spec.part in Pb. lia. }
    intros m. cbn [In]. split.
    - intros [<-|[<-|[]]]; (split; [apply Sums_Proofs.within_part; unfold Sums_Spec.part; lia|apply Fin; lia]).
    - intros [W [(f & vs & Gm) _]]. apply G in Gm as [Gm _]. assert (W2 : m = 103 \/ 600 <= m < 650).
      { destruct (Sums_Proofs.within_down _ _ W) as [E|(b & Pb & Wb)]; [auto|]. right. assert (Hb : 600 <= b < 650) by (unfold Sums_Spec.part in Pb; lia). destruct (Sums_Proofs.within_down _ _ Wb) as [E|(b' & Pb' & _)]; [lia|]. unfold Sums_Spec.part in Pb'. lia. }
      lia. }
  split; [exact L|]. intros (f0 & (m & vs & Im & Gm) & Min & _ & _ & Len & Sum).
  assert (f0 = 0%nat) as -> by (pose proof (Min 600 0%nat _ ltac:(cbn; auto) G600); lia).
  specialize (Sum (fun m => if m =? 600 then (0%nat, [qz 1; qz 1; qz 1]) else (1%nat, [qz 4; qz 4]))).
  assert (Src : forall m, In m [600; 601] -> gives ex_near m (fst (if m =? 600 then (0%nat, [qz 1; qz 1; qz 1]) else (1%nat, [qz 4; qz 4]))) (snd (if m =? 600 then (0%nat, [qz 1; qz 1; qz 1]) else (1%nat, [qz 4; qz 4])))).
  { intros k [<-|[<-|[]]]; [exact G600|exact G601]. }
  specialize (Sum Src 0%nat ltac:(cbn; lia)). apply (f_equal this) in Sum. rewrite <- (map_nth this) in Sum. cbn [Nat.sub] in Sum. rewrite V1 in Sum. vm_compute in Sum. discriminate.
Qed.
Print Assumptions C64_near_threshold_refuted.
