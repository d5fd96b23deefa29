From Coq Require Import ZArith NArith QArith Qcanon List Bool Lia String Ascii.
From Verif Require Import Num Text Dec PyNum Mass_Model Mass_Spec.
From Verif Require Sampler_Model Sab_Model.
Import ListNotations.
Local Open Scope list_scope.
Local Open Scope nat_scope.

(** ** Lines *)
Lemma col_at pre m r i j : List.length pre = i -> List.length m = j - i -> col i j (pre ++ m ++ r) = m.
Proof.
  intros <- L. unfold col. rewrite skipn_app, skipn_all, Nat.sub_diag. cbn [app skipn]. rewrite <- L, firstn_app, Nat.sub_diag, firstn_all. cbn [firstn]. apply app_nil_r.
Qed.
Lemma float_integer w u : py_float (repeat sp w ++ decN u) = Some (qz (Z.of_N u)).
Proof.
  unfold py_float. rewrite <- (app_nil_r (decN u)) at 1. change (@nil ascii) with (repeat sp 0). rewrite trim_padded.
  - rewrite sign_digit, digits_all by auto using decN_nonnil, decN_digits. rewrite app_nil_r. destruct (decN u) as [|c r] eqn:E; [now apply decN_nonnil in E|].
    rewrite <- E. cbn [repeat exponent option_map]. rewrite dval_decN. f_equal. unfold decimal, signed. cbn [List.length Z.of_nat Z.sub]. change (pow10 (0 - 0)) with 1%Qc. apply Qcmult_1_r.
  - apply head_digit_not_space; auto using decN_nonnil, decN_digits.
  - apply (ends_digit_not_space [] (decN u)); auto using decN_nonnil, decN_digits.
Qed.
Lemma float_point six more z : List.length six = 6 -> forallb is_digit six = true -> forallb is_digit more = true ->
  py_float (six ++ "."%char :: more ++ repeat sp z) = Some (decimal false (dval (six ++ more)) (List.length more) 0).
Proof.
  intros L D1 D2. assert (N : six <> []) by (destruct six; [discriminate|discriminate]).
  assert (H1 : head_space (six ++ "."%char :: more) = false) by (destruct six as [|c six]; [congruence|]; cbn [app head_space]; apply andb_true_iff in D1 as [D1 _]; now apply is_digit_not_space).
  assert (H2 : ends_space (six ++ "."%char :: more) = false).
  { destruct more as [|m more]; [unfold ends_space; rewrite rev_app_distr; reflexivity|]. change ("."%char :: m :: more) with (["."%char] ++ m :: more). rewrite app_assoc. apply ends_digit_not_space; [discriminate|assumption]. }
  unfold py_float. replace (six ++ "."%char :: more ++ repeat sp z) with (repeat sp 0 ++ (six ++ "."%char :: more) ++ repeat sp z) by (cbn [repeat app]; rewrite <- app_assoc; reflexivity).
  rewrite trim_padded by assumption.
  assert (S : sign (six ++ "."%char :: more) = (false, six ++ "."%char :: more)).
  { destruct six as [|c six]; [congruence|]. cbn [app sign]. cbn [forallb] in D1. apply andb_true_iff in D1 as [D1 _].
    destruct (eqc c "-") eqn:E; [apply eqc_eq in E; subst; discriminate|]. destruct (eqc c "+") eqn:E'; [apply eqc_eq in E'; subst; discriminate|]. reflexivity. }
  rewrite S, (digits_app six ("."%char :: more) D1 eq_refl). cbn [eqc]. change (eqc "." ".") with true. cbn iota. rewrite (digits_all more D2).
  destruct (six ++ more) as [|c r] eqn:E; [destruct six; [congruence|discriminate]|]. reflexivity.
Qed.
Lemma decZ_N a : decZ (Z.of_N a) = decN a.
Proof. destruct a; reflexivity. Qed.
Lemma scaled k : (k <= 5)%nat -> forall D : Qc, (qc 1 1000000 * (D * pow10 (0 - Z.of_nat k)) = D / qz (10 ^ Z.of_nat (6 + k)))%Qc.
Proof.
  intros K D. assert (E : (qc 1 1000000 * pow10 (0 - Z.of_nat k) = / qz (10 ^ Z.of_nat (6 + k)))%Qc).
  { destruct k as [|[|[|[|[|[|]]]]]]; try lia; apply Qc_is_canon; reflexivity. }
  unfold Qcdiv. rewrite <- E. ring.
Qed.
Lemma mass_line_ok l n : mass_text l n -> mass_line l = Some (Sampler_Model.lower (name_of n), n_mass n).
Proof.
  intros (pre & x & c & y0 & y1 & mid & w & u & c1 & six & c2 & more & z & rest & -> & L1 & L2 & L3 & L4 & L5 & L6 & L7 & N & Sp & D1 & D2 & M).
  set (A := repeat sp x ++ decN (n_mass_number n)). set (S := repeat sp y0 ++ n_symbol n ++ repeat sp y1). set (U := repeat sp w ++ decN u). set (F := more ++ repeat sp z).
  assert (LA : List.length A = 3) by (unfold A; rewrite app_length, repeat_length; exact L2).
  assert (LS : List.length S = 2) by (unfold S; rewrite !app_length, !repeat_length; lia).
  assert (LU : List.length U = 3) by (unfold U; rewrite app_length, repeat_length; exact L5).
  assert (LF : List.length F = 5) by (unfold F; rewrite app_length, repeat_length; exact L7).
  unfold mass_line.
  rewrite (col_at pre A _ 16 19) by (assumption || lia).
  replace (pre ++ A ++ c :: S ++ mid ++ U ++ c1 :: six ++ c2 :: F ++ rest) with ((pre ++ A ++ [c]) ++ S ++ (mid ++ U ++ c1 :: six ++ c2 :: F ++ rest)) by (rewrite <- !app_assoc; reflexivity).
  rewrite (col_at _ S _ 20 22) by (rewrite ?app_length; cbn [List.length]; lia).
  replace ((pre ++ A ++ [c]) ++ S ++ mid ++ U ++ c1 :: six ++ c2 :: F ++ rest) with ((pre ++ A ++ [c] ++ S ++ mid) ++ U ++ (c1 :: six ++ c2 :: F ++ rest)) by (rewrite <- !app_assoc; reflexivity).
  rewrite (col_at _ U _ 96 99) by (rewrite ?app_length; cbn [List.length]; lia).
  replace ((pre ++ A ++ [c] ++ S ++ mid) ++ U ++ c1 :: six ++ c2 :: F ++ rest) with ((pre ++ A ++ [c] ++ S ++ mid ++ U ++ [c1]) ++ six ++ (c2 :: F ++ rest)) by (rewrite <- !app_assoc; reflexivity).
  rewrite (col_at _ six _ 100 106) by (rewrite ?app_length; cbn [List.length]; lia).
  replace ((pre ++ A ++ [c] ++ S ++ mid ++ U ++ [c1]) ++ six ++ c2 :: F ++ rest) with ((pre ++ A ++ [c] ++ S ++ mid ++ U ++ [c1] ++ six ++ [c2]) ++ F ++ rest) by (rewrite <- !app_assoc; reflexivity).
  rewrite (col_at _ F _ 107 112) by (rewrite ?app_length; cbn [List.length]; lia).
  assert (EA : py_int A = Some (Z.of_N (n_mass_number n))).
  { unfold A. rewrite <- decZ_N, <- (app_nil_r (decZ _)). change (@nil ascii) with (repeat sp 0). apply py_int_dec. }
  rewrite EA. unfold U. rewrite float_integer. unfold F. rewrite float_point by assumption.
  assert (ES : trim S = n_symbol n).
  { unfold S. apply trim_padded.
    - destruct (n_symbol n) as [|s r]; [congruence|]. cbn [forallb head_space] in *. apply andb_true_iff in Sp as [Sp _]. now destruct (is_space s).
    - unfold ends_space. destruct (rev (n_symbol n)) as [|s r] eqn:E; [exfalso; apply N; rewrite <- (rev_involutive (n_symbol n)), E; reflexivity|]. cbn [head_space]. rewrite forallb_forall in Sp.
      assert (I : In s (n_symbol n)) by (apply in_rev; rewrite E; now left). apply Sp in I. now destruct (is_space s). }
  rewrite ES, decZ_N. unfold decimal, signed. rewrite scaled by lia. rewrite M. reflexivity.
Qed.

(** ** The dictionary *)
Lemma mass_set_same k v d : mass_at k (set_mass k v d) = Some v.
Proof. induction d as [|[k' v'] d IH]; cbn [set_mass mass_at]; [now rewrite eqt_refl|]. destruct (eqt k k') eqn:E; cbn [mass_at]; [now rewrite eqt_refl|now rewrite E]. Qed.
Lemma mass_set_other k k' v d : k' <> k -> mass_at k' (set_mass k v d) = mass_at k' d.
Proof.
  intros N. induction d as [|[k2 v2] d IH]; cbn [set_mass mass_at].
  - destruct (eqt k' k) eqn:E; [apply eqt_eq in E; congruence|reflexivity].
  - destruct (eqt k k2) eqn:E; cbn [mass_at].
    + apply eqt_eq in E. subst k2. destruct (eqt k' k) eqn:E2; [apply eqt_eq in E2; congruence|reflexivity].
    + destruct (eqt k' k2); [reflexivity|exact IH].
Qed.
Definition key (n : nucl) : text := Sampler_Model.lower (name_of n).
Lemma load_lines_ok t ns : Forall2 mass_text t ns -> NoDup (map key ns) -> forall d, exists d', load_lines t d = (d', true) /\
  (forall n, In n ns -> mass_at (key n) d' = Some (n_mass n)) /\ forall k, ~ In k (map key ns) -> mass_at k d' = mass_at k d.
Proof.
  induction 1 as [|l n t ns H F IH]; intros N d; [exists d; repeat split; intros ? []|]. cbn [map] in N. inversion N as [|? ? N1 N2]. subst.
  cbn [load_lines]. rewrite (mass_line_ok l n H). fold (key n). destruct (IH N2 (set_mass (key n) (n_mass n) d)) as (d' & E & V & O). exists d'. split; [exact E|]. split.
  - intros m [<-|I]; [rewrite O by assumption; apply mass_set_same|now apply V].
  - intros k Nk. rewrite O by (intros I; apply Nk; now right). apply mass_set_other. intros ->. apply Nk. now left.
Qed.

(** ** Isotopes *)
Definition nondigits (t : text) : Prop := forallb (fun c => negb (is_digit c)) t = true.
Fixpoint split_name (t : text) : text * text :=
  match t with [] => ([], []) | c :: r => if is_digit c then ([], t) else let (a, b) := split_name r in (c :: a, b) end.
Lemma split_name_ok t : t = fst (split_name t) ++ snd (split_name t) /\ nondigits (fst (split_name t)).
Proof.
  induction t as [|c t [E1 E2]]; [now split|]. cbn [split_name]. destruct (is_digit c) eqn:D; [now split|]. destruct (split_name t) as [a b]. cbn [fst snd app] in *. split; [now f_equal|].
  unfold nondigits in *. cbn [forallb]. now rewrite D.
Qed.
Definition formed (p : string * Q) : bool := let r := snd (split_name (str (fst p))) in eqt r (decN (dval r)).
Lemma table_formed : forallb formed Sab_Model.natural_abundance = true.
Proof. vm_compute. reflexivity. Qed.
Lemma is_isotope_prefix el : forall iso, Sab_Model.is_isotope el iso = true <-> exists c r, str iso = str el ++ c :: r /\ is_digit c = true.
Proof.
  induction el as [|e el IH]; intros iso.
  - destruct iso as [|c iso]; cbn [Sab_Model.is_isotope]; (split; [intros H|intros (d & r & E & D)]); try discriminate.
    + exists c, (str iso). now split.
    + cbn in E. injection E as -> _. exact D.
  - destruct iso as [|c iso]; cbn [Sab_Model.is_isotope]; (split; [intros H|intros (d & r & E & D)]); try discriminate.
    + apply andb_true_iff in H as [H1 H2]. apply Ascii.eqb_eq in H1. subst. apply IH in H2 as (d & r & E & D). exists d, r. split; [|assumption]. change (str (String c iso)) with (c :: str iso). rewrite E. reflexivity.
    + change (str (String c iso)) with (c :: str iso) in E. change (str (String e el)) with (e :: str el) in E. cbn [app] in E. injection E as -> E. rewrite Ascii.eqb_refl. cbn [andb]. apply IH. eauto.
Qed.
Lemma split_unique a : forall b c d r s, nondigits a -> nondigits b -> is_digit c = true -> is_digit d = true -> a ++ c :: r = b ++ d :: s -> a = b /\ c :: r = d :: s.
Proof.
  induction a as [|x a IH]; intros [|y b] c d r s Ha Hb Hc Hd E; cbn [app] in E.
  - now split.
  - exfalso. injection E as -> _. unfold nondigits in Hb. cbn [forallb] in Hb. rewrite Hc in Hb. discriminate.
  - exfalso. injection E as -> _. unfold nondigits in Ha. cbn [forallb] in Ha. rewrite Hd in Ha. discriminate.
  - injection E as -> E. unfold nondigits in *. cbn [forallb] in Ha, Hb. apply andb_true_iff in Ha as [_ Ha], Hb as [_ Hb]. destruct (IH b c d r s Ha Hb Hc Hd E) as [-> ->]. now split.
Qed.
Lemma isotope_iff el iso ab : symbol el -> In (iso, ab) Sab_Model.natural_abundance -> (Sab_Model.is_isotope el iso = true <-> isotope_of el iso).
Proof.
  intros [_ Hel] I. pose proof table_formed as T. rewrite forallb_forall in T. apply T in I. unfold formed in I. cbn [fst] in I. apply eqt_eq in I.
  rewrite is_isotope_prefix. split.
  - intros (c & r & E & D). destruct (split_name_ok (str iso)) as [S1 S2]. rewrite I in S1. destruct (decN_head (dval (snd (split_name (str iso))))) as (c' & r' & E' & D').
    rewrite E' in S1. rewrite E in S1 at 1. destruct (split_unique _ _ _ _ _ _ Hel S2 D D' S1) as [Q1 Q2]. exists (dval (snd (split_name (str iso)))). rewrite E'. rewrite <- Q2. exact E.
  - intros (a & E). destruct (decN_head a) as (c & r & E' & D). exists c, r. now rewrite E, E'.
Qed.

Section Composition.
Variables (ns : list nucl) (el : string).
Hypothesis Hsym : symbol el.
Lemma add_isotopes_ok t l : (forall p, In p t -> In p Sab_Model.natural_abundance) -> composed ns el t l -> ~ In (mixture el) (map key ns) -> forall d w,
  mass_at (mixture el) d = Some w -> (forall n, In n ns -> mass_at (key n) d = Some (n_mass n)) ->
  exists d', add_isotopes el t d = (d', true) /\ mass_at (mixture el) d' = Some (w + mean l)%Qc /\ forall k, k <> mixture el -> mass_at k d' = mass_at k d.
Proof.
  intros Hi C. induction C as [|iso ab t l N C IH|iso ab t l n I In_ E C IH]; intros Nk d w Hw Hd.
  - exists d. split; [reflexivity|]. split; [|reflexivity]. rewrite Hw. f_equal. unfold mean, qsum. cbn [map fold_right]. ring.
  - cbn [add_isotopes]. assert (E : Sab_Model.is_isotope el iso = false).
    { destruct (Sab_Model.is_isotope el iso) eqn:E; [|reflexivity]. exfalso. apply N. apply (isotope_iff el iso ab Hsym); [apply Hi; now left|assumption]. }
    rewrite E. apply IH; try assumption. intros p Hp. apply Hi. now right.
  - cbn [add_isotopes]. assert (E2 : Sab_Model.is_isotope el iso = true) by (apply (isotope_iff el iso ab Hsym); [apply Hi; now left|assumption]).
    rewrite E2. cbv zeta. fold (mixture el). rewrite Hw, <- E. fold (key n). rewrite (Hd n In_).
    destruct (IH (fun p Hp => Hi p (or_intror Hp)) Nk (set_mass (mixture el) (w + Q2Qc ab * n_mass n)%Qc d) (w + Q2Qc ab * n_mass n)%Qc) as (d' & D1 & D2 & D3).
    + apply mass_set_same.
    + intros m Hm. rewrite mass_set_other; [now apply Hd|]. intros X. apply Nk. rewrite <- X. now apply in_map.
    + exists d'. split; [exact D1|]. split.
      * rewrite D2. f_equal. unfold mean, qsum. cbn [map fold_right fst snd]. ring.
      * intros k Hk. rewrite D3 by assumption. now apply mass_set_other.
Qed.
End Composition.
Lemma add_elements_ok ns ls : forall els, map fst ls = els -> (forall p, In p ls -> symbol (fst p) /\ composition ns (fst p) (snd p)) -> NoDup (map key ns ++ map mixture els) ->
  forall d, (forall n, In n ns -> mass_at (key n) d = Some (n_mass n)) ->
  exists d', add_elements els d = (d', true) /\ (forall p, In p ls -> mass_at (mixture (fst p)) d' = Some (mean (snd p))) /\ forall k, ~ In k (map mixture els) -> mass_at k d' = mass_at k d.
Proof.
  induction ls as [|[el l] ls IH]; intros els <- H N d Hd; [exists d; repeat split; intros ? []|]. cbn [map fst] in *. cbn [add_elements]. fold (mixture el).
  destruct (H (el, l) (or_introl eq_refl)) as [S C]. cbn [fst snd] in S, C.
  assert (Nk : ~ In (mixture el) (map key ns)) by (intros I; apply NoDup_remove_2 in N; apply N, in_or_app; now left).
  assert (Nm : ~ In (mixture el) (map mixture (map fst ls))) by (intros I; apply NoDup_remove_2 in N; apply N, in_or_app; now right).
  assert (N' : NoDup (map key ns ++ map mixture (map fst ls))) by (eapply NoDup_remove_1; exact N).
  destruct (add_isotopes_ok ns el S _ l (fun p Hp => Hp) C Nk (set_mass (mixture el) 0%Qc d) 0%Qc) as (d1 & E1 & V1 & O1).
  { apply mass_set_same. }
  { intros n Hn. rewrite mass_set_other; [now apply Hd|]. intros X. apply Nk. rewrite <- X. now apply in_map. }
  rewrite E1. destruct (IH _ eq_refl (fun p Hp => H p (or_intror Hp)) N' d1) as (d2 & E2 & V2 & O2).
  { intros n Hn. assert (X : key n <> mixture el) by (intros X; apply Nk; rewrite <- X; now apply in_map). rewrite O1, mass_set_other by assumption. now apply Hd. }
  exists d2. split; [exact E2|]. split.
  - intros p [<-|Hp]; [|now apply V2]. cbn [fst snd]. rewrite O2, V1 by assumption. f_equal. ring.
  - intros k Hk. cbn [In] in Hk. rewrite O2 by tauto. assert (X : k <> mixture el) by (intros ->; apply Hk; now left). now rewrite O1, mass_set_other.
Qed.
Lemma load_ok ls ns cs : file_text ls ns -> distinct ns -> map fst cs = mixtures -> (forall p, In p cs -> composition ns (fst p) (snd p)) ->
  exists d, load ls = (d, true) /\ d <> [] /\ (forall n, In n ns -> mass_at (key n) d = Some (n_mass n)) /\ (forall p, In p cs -> mass_at (mixture (fst p)) d = Some (mean (snd p))) /\
    forall k, ~ In k (map key ns ++ map mixture mixtures) -> mass_at k d = None.
Proof.
  intros (h & t & -> & Lh & F) N Ec Hc. unfold load. rewrite skipn_app, skipn_all2, Lh, Nat.sub_diag by lia. cbn [app skipn].
  assert (N1 : NoDup (map key ns)) by (unfold distinct in N; fold key in N; clear - N; revert N; generalize (map mixture mixtures); intros m N; induction (map (fun n => Sampler_Model.lower (name_of n)) ns) as [|x l IH] eqn:E in ns, N |- *; [|]; [destruct ns; [constructor|discriminate]|]; destruct ns as [|n ns]; [discriminate|]; injection E as <- <-; cbn [map app] in *; inversion N as [|? ? A B]; subst; constructor; [intros I; apply A, in_or_app; now left|now apply (IH ns)]).
  destruct (load_lines_ok t ns F N1 []) as (d0 & E0 & V0 & O0). rewrite E0.
  destruct (add_elements_ok ns cs natural Ec) with (d := d0) as (d & E & V & O); [|exact N|exact V0|].
  { intros p Hp. split; [|now apply Hc]. assert (I : In (fst p) mixtures) by (rewrite <- Ec; now apply in_map). cbn [mixtures In] in I. repeat (destruct I as [<-|I]; [split; [discriminate|reflexivity]|]). destruct I. }
  exists d. rewrite E. split; [reflexivity|].
  assert (Dj : forall n, In n ns -> ~ In (key n) (map mixture mixtures)).
  { intros n Hn Hm. apply in_split in Hm as (l1 & l2 & Em). unfold distinct in N. fold key in N. change (map (fun n => Sampler_Model.lower (name_of n)) ns) with (map key ns) in N. rewrite Em in N. apply NoDup_app_remove_middle in N || idtac.
    rewrite app_assoc in N. apply NoDup_remove_2 in N. apply N. rewrite <- app_assoc. apply in_or_app. left. now apply in_map. }
  split.
  { destruct cs as [|p cs]; [discriminate|]. intros ->. specialize (V p (or_introl eq_refl)). discriminate. }
  split; [intros n Hn; rewrite O by (now apply Dj); now apply V0|]. split; [exact V|]. intros k Hk. rewrite O by (intros X; apply Hk, in_or_app; now right).
  rewrite O0 by (intros X; apply Hk, in_or_app; now left). reflexivity.
Qed.

(** ** Lookup *)
Lemma ground_plain t : ~ In "_"%char t -> ground t = t.
Proof. induction t as [|c t IH]; intros H; [reflexivity|]. cbn [ground]. destruct (eqc c "_") eqn:E; [apply eqc_eq in E; subst; exfalso; apply H; now left|]. f_equal. apply IH. intros I. apply H. now right. Qed.
Lemma ground_state t m : ~ In "_"%char t -> ground (t ++ "_"%char :: m) = t.
Proof. induction t as [|c t IH]; intros H; [reflexivity|]. cbn [ground app]. destruct (eqc c "_") eqn:E; [apply eqc_eq in E; subst; exfalso; apply H; now left|]. f_equal. apply IH. intros I. apply H. now right. Qed.
Lemma names_key s n : names s n -> Sampler_Model.lower (ground s) = key n.
Proof. intros (t & E & N & [->|(m & ->)]); [rewrite ground_plain by assumption|rewrite ground_state by assumption]; exact E. Qed.
(** The state: nothing loaded, or everything. *)
Definition ready (ls : list text) (d : masses) : Prop := d = [] \/ d = fst (load ls).
Lemma atomic_mass_ready ls d s L : load ls = (L, true) -> L <> [] -> ready ls d -> atomic_mass ls d s = (mass_at (Sampler_Model.lower (ground s)) L, L).
Proof.
  intros E N [->| ->]; unfold atomic_mass; [now rewrite E|]. rewrite E. cbn [fst]. destruct L as [|p L]; [congruence|reflexivity].
Qed.
Lemma natural_plain iso ab : In (iso, ab) Sab_Model.natural_abundance -> ~ In "_"%char (str iso).
Proof.
  intros I. assert (T : forallb (fun p => forallb (fun c => negb (eqc c "_")) (str (fst p))) Sab_Model.natural_abundance = true) by (vm_compute; reflexivity).
  rewrite forallb_forall in T. apply T in I. cbn [fst] in I. intros U. rewrite forallb_forall in I. apply I in U. discriminate.
Qed.
Lemma weigh_ok ls ns el t l : symbol el -> (forall p, In p t -> In p Sab_Model.natural_abundance) -> composed ns el t l -> forall L, load ls = (L, true) -> L <> [] -> (forall n, In n ns -> mass_at (key n) L = Some (n_mass n)) ->
  forall w d, ready ls d -> exists d', weigh ls el t w d = (Some (w + mean l)%Qc, d') /\ ready ls d'.
Proof.
  intros S Hi C. induction C as [|iso ab t l N C IH|iso ab t l n I In_ E C IH]; intros L EL NL HL w d Rd.
  - exists d. split; [|assumption]. cbn [weigh]. do 2 f_equal. unfold mean, qsum. cbn [map fold_right]. ring.
  - cbn [weigh]. assert (E : Sab_Model.is_isotope el iso = false).
    { destruct (Sab_Model.is_isotope el iso) eqn:E; [|reflexivity]. exfalso. apply N. apply (isotope_iff el iso ab S); [apply Hi; now left|assumption]. }
    rewrite E. apply (IH (fun p Hp => Hi p (or_intror Hp)) L); assumption.
  - cbn [weigh]. pose proof (Hi _ (or_introl eq_refl)) as Ii. rewrite (proj2 (isotope_iff el iso ab S Ii) I). rewrite (atomic_mass_ready ls d (str iso) L EL NL Rd).
    rewrite ground_plain by (eapply natural_plain; exact Ii). rewrite <- E. fold (key n). rewrite (HL n In_).
    destruct (IH (fun p Hp => Hi p (or_intror Hp)) L EL NL HL (w + n_mass n * Q2Qc ab)%Qc L) as (d' & E1 & R1); [right; now rewrite EL|]. exists d'. split; [|assumption]. rewrite E1. do 2 f_equal.
    unfold mean, qsum. cbn [map fold_right fst snd]. ring.
Qed.
Lemma weigh_none ls el t : symbol el -> (forall p, In p t -> In p Sab_Model.natural_abundance) -> (forall iso ab, In (iso, ab) t -> ~ isotope_of el iso) -> forall w d, weigh ls el t w d = (Some w, d).
Proof.
  intros S. induction t as [|[iso ab] t IH]; intros Hi H w d; [reflexivity|]. cbn [weigh]. assert (E : Sab_Model.is_isotope el iso = false).
  { destruct (Sab_Model.is_isotope el iso) eqn:E; [|reflexivity]. exfalso. apply (H iso ab); [now left|]. apply (isotope_iff el iso ab S); [apply Hi; now left|assumption]. }
  rewrite E. apply IH; [intros p Hp; apply Hi; now right|]. intros i a Ha. apply (H i a). now right.
Qed.

(** ** Abundances *)
Definition share_of (t : list (string * Q)) (el : string) : Qc := qsum (map (fun p => Q2Qc (snd p)) (filter (fun p => Sab_Model.is_isotope el (fst p)) t)).
Notation share := (share_of Sab_Model.natural_abundance).
Definition letters (iso : string) : string := string_of_list_ascii (fst (split_name (str iso))).
Lemma table_shares : forallb (fun p => qeqb (share (letters (fst p))) 1%Qc && qltb 0%Qc (Q2Qc (snd p))) Sab_Model.natural_abundance = true.
Proof. vm_compute. reflexivity. Qed.
Lemma share_one el iso ab : symbol el -> In (iso, ab) Sab_Model.natural_abundance -> isotope_of el iso -> share el = 1%Qc.
Proof.
  intros [_ S] I (a & E). pose proof table_shares as T. rewrite forallb_forall in T. pose proof (T _ I) as Ti. cbn [fst] in Ti. apply andb_true_iff in Ti as [Ti _].
  assert (El : letters iso = el).
  { destruct (split_name_ok (str iso)) as [S1 S2]. pose proof table_formed as F. rewrite forallb_forall in F. apply F in I. unfold formed in I. cbn [fst] in I. apply eqt_eq in I. rewrite I in S1.
    destruct (decN_head (dval (snd (split_name (str iso))))) as (c' & r' & E' & D'). destruct (decN_head a) as (c & r & E2 & D). rewrite E' in S1. rewrite E, E2 in S1 at 1.
    destruct (split_unique _ _ _ _ _ _ S S2 D D' S1) as [Q1 _]. unfold letters. rewrite <- Q1. unfold str. apply string_of_list_ascii_of_string. }
  rewrite El in Ti. now destruct (qeqb_spec (share el) 1%Qc).
Qed.
Lemma composed_share ns el t l : symbol el -> (forall p, In p t -> In p Sab_Model.natural_abundance) -> composed ns el t l ->
  qsum (map fst l) = share_of t el /\ (forall p, In p l -> 0 < fst p)%Qc /\ (l <> [] -> exists iso ab, In (iso, ab) t /\ isotope_of el iso).
Proof.
  intros S Hi C. unfold share_of. induction C as [|iso ab t l N C IH|iso ab t l n I In_ E C IH].
  - split; [reflexivity|]. split; [intros p []|congruence].
  - destruct (IH (fun p Hp => Hi p (or_intror Hp))) as (I1 & I2 & I3). cbn [filter fst].
    assert (E : Sab_Model.is_isotope el iso = false).
    { destruct (Sab_Model.is_isotope el iso) eqn:E; [|reflexivity]. exfalso. apply N. apply (isotope_iff el iso ab S); [apply Hi; now left|assumption]. }
    rewrite E. split; [exact I1|]. split; [exact I2|]. intros Nl. destruct (I3 Nl) as (i & b & J & K). exists i, b. split; [now right|assumption].
  - destruct (IH (fun p Hp => Hi p (or_intror Hp))) as (I1 & I2 & I3). pose proof (Hi _ (or_introl eq_refl)) as Ii. cbn [filter fst]. rewrite (proj2 (isotope_iff el iso ab S Ii) I). cbn [map fst snd].
    split; [unfold qsum in *; cbn [fold_right]; rewrite I1; reflexivity|]. split.
    + intros p [<-|Hp]; [|now apply I2]. cbn [fst]. pose proof table_shares as T. rewrite forallb_forall in T. apply T in Ii. apply andb_true_iff in Ii as [_ Ii]. cbn [snd] in Ii. now destruct (qltb_spec 0%Qc (Q2Qc ab)).
    + intros _. exists iso, ab. split; [now left|assumption].
Qed.
Lemma mean_bounds l lo hi : (forall p, In p l -> 0 < fst p /\ lo <= snd p <= hi)%Qc -> (lo * qsum (map fst l) <= mean l <= hi * qsum (map fst l))%Qc.
Proof.
  induction l as [|[a m] l IH]; intros H; unfold mean, qsum in *; cbn [map fold_right fst snd] in *.
  - rewrite !Qcmult_0_r. split; apply Qcle_refl.
  - destruct (IH (fun p Hp => H p (or_intror Hp))) as [I1 I2]. destruct (H _ (or_introl eq_refl)) as (P & B1 & B2). cbn [fst snd] in P, B1, B2.
    assert (M1 : (lo * a <= a * m)%Qc) by (rewrite (Qcmult_comm lo a); rewrite !(Qcmult_comm a); apply Qcmult_le_compat_r; [assumption|now apply Qclt_le_weak]).
    assert (M2 : (a * m <= hi * a)%Qc) by (rewrite (Qcmult_comm a m); apply Qcmult_le_compat_r; [assumption|now apply Qclt_le_weak]).
    rewrite !Qcmult_plus_distr_r. split; apply Qcplus_le_compat; assumption.
Qed.

(** ** Elements cut short, compositions found *)
Lemma weigh_filter ls el t : forall w d, weigh ls el t w d = weigh ls el (filter (fun p => Sab_Model.is_isotope el (fst p)) t) w d.
Proof.
  induction t as [|[iso ab] t IH]; intros w d; [reflexivity|]. cbn [weigh filter fst]. destruct (Sab_Model.is_isotope el iso) eqn:E; [|apply IH]. cbn [weigh]. rewrite E.
  destruct (atomic_mass ls d (str iso)) as [[m|] d']; [apply IH|reflexivity].
Qed.
Fixpoint found (ns : list nucl) (t : list (string * Q)) : option (list (Qc * Qc)) :=
  match t with
  | [] => Some []
  | (iso, ab) :: r => match find (fun n => eqt (name_of n) (str iso)) ns, found ns r with Some n, Some l => Some ((Q2Qc ab, n_mass n) :: l) | _, _ => None end
  end.
Lemma composed_found ns el t l : symbol el -> (forall p, In p t -> In p Sab_Model.natural_abundance) -> found ns (filter (fun p => Sab_Model.is_isotope el (fst p)) t) = Some l -> composed ns el t l.
Proof.
  intros S. revert l. induction t as [|[iso ab] t IH]; intros l Hi F; cbn [filter fst found] in F; [injection F as <-; constructor|].
  pose proof (isotope_iff el iso ab S (Hi _ (or_introl eq_refl))) as Q. destruct (Sab_Model.is_isotope el iso) eqn:E.
  - cbn [found] in F. destruct (find (fun n => eqt (name_of n) (str iso)) ns) as [n|] eqn:Fn; [|discriminate]. destruct (found ns _) as [l'|] eqn:Fl; [|discriminate].
    assert (l = (Q2Qc ab, n_mass n) :: l') as -> by congruence. apply find_some in Fn as [I En]. apply eqt_eq in En. constructor; [now apply Q|assumption|assumption|]. apply IH; [intros p Hp; apply Hi; now right|reflexivity].
  - constructor; [rewrite <- Q; discriminate|]. apply IH; [intros p Hp; apply Hi; now right|assumption].
Qed.
