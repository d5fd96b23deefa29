(** The data of a nuclide in HDF5, lemmas. *)
From Coq Require Import ZArith QArith Qcanon List Bool Arith Lia String Ascii Permutation Sorted.
From Coq Require Import DecimalString DecimalNat.
From Verif Require Import Num Neut_Model Law_Model Hdf_Model Hdf_Spec Hdf_Proofs Nuc_Model Nuc_Spec.
From Verif Require Sums_Model Law_Proofs.
Import ListNotations.
Local Open Scope list_scope.
Local Open Scope Z_scope.

(** ** Names in order *)
Lemma insert_perm {A} (e : string * A) l : Permutation (insert e l) (e :: l).
Proof. induction l as [|f l IH]; [reflexivity|]. cbn [insert]. destruct (String.leb _ _); [reflexivity|]. rewrite IH. apply perm_swap. Qed.
Lemma ordered_perm {A} (l : list (string * A)) : Permutation (ordered l) l.
Proof. induction l as [|e l IH]; [reflexivity|]. unfold ordered in *. cbn [fold_right]. rewrite insert_perm. now constructor. Qed.
Lemma leb_trans a b c : String.leb a b = true -> String.leb b c = true -> String.leb a c = true.
Proof.
  unfold String.leb. revert b c. induction a as [|x a IH]; intros b c; [now destruct c|]. destruct b as [|y b]; [discriminate|]. destruct c as [|z c]; [discriminate|]. cbn [String.compare].
  unfold Ascii.compare. destruct (N.compare_spec (N_of_ascii x) (N_of_ascii y)) as [E|L|G]; [|intros _|discriminate].
  - rewrite E. destruct (N.compare_spec (N_of_ascii y) (N_of_ascii z)); [apply IH | auto | discriminate].
  - destruct (N.compare_spec (N_of_ascii y) (N_of_ascii z)) as [E2|L2|G2]; [| |discriminate]; intros _; destruct (N.compare_spec (N_of_ascii x) (N_of_ascii z)); try reflexivity; lia.
Qed.
Definition before {A} (e f : string * A) : Prop := String.leb (fst e) (fst f) = true.
Lemma insert_sorted {A} (e : string * A) l : StronglySorted before l -> StronglySorted before (insert e l).
Proof.
  induction 1 as [|f l S IH F]; cbn [insert]; [repeat constructor|]. destruct (String.leb (fst e) (fst f)) eqn:E.
  - constructor; [now constructor|]. constructor; [exact E|]. rewrite Forall_forall in *. intros g G. apply (leb_trans _ _ _ E). now apply F.
  - constructor; [exact IH|]. apply (Permutation_Forall (Permutation_sym (insert_perm e l))). constructor; [|exact F]. unfold before. destruct (String.leb_total (fst e) (fst f)); [congruence | assumption].
Qed.
Lemma ordered_sorted {A} (l : list (string * A)) : StronglySorted before (ordered l).
Proof. induction l as [|e l IH]; [constructor|]. unfold ordered in *. cbn [fold_right]. now apply insert_sorted. Qed.
Lemma sorted_keys {A} (l : list (string * A)) : StronglySorted before l -> StronglySorted (fun s t => String.leb s t = true) (map fst l).
Proof. induction 1 as [|e l S IH F]; cbn [map]; constructor; [exact IH|]. rewrite Forall_map. exact F. Qed.
(** Pairwise related lists with the same names stay so. *)
Lemma insert_both {A B} (R : string * A -> string * B -> Prop) (K : forall e f, R e f -> fst e = fst f) e f l m : R e f -> Forall2 R l m -> Forall2 R (insert e l) (insert f m).
Proof.
  intros E F. induction F as [|x y l m X F IH]; cbn [insert]; [repeat constructor; exact E|]. rewrite <- (K _ _ E), <- (K _ _ X). destruct (String.leb _ _); repeat (constructor; try assumption).
Qed.
Lemma ordered_both {A B} (R : string * A -> string * B -> Prop) (K : forall e f, R e f -> fst e = fst f) l m : Forall2 R l m -> Forall2 R (ordered l) (ordered m).
Proof. induction 1 as [|x y l m X F IH]; [constructor|]. unfold ordered in *. cbn [fold_right]. now apply insert_both. Qed.

(** ** Looking up *)
Lemma look_In {A} k (a : A) l : look k l = Some a -> In (k, a) l.
Proof. induction l as [|[k' x] l IH]; cbn; [discriminate|]. destruct (String.eqb_spec k k') as [->|N]; [intros [= ->]; now left | intros H; right; now apply IH]. Qed.
Lemma In_look {A} k (a : A) l : NoDup (map fst l) -> In (k, a) l -> look k l = Some a.
Proof.
  induction l as [|[k' x] l IH]; cbn; [contradiction|]. intros N I0. inversion N as [|? ? N1 N2]; subst. destruct I0 as [[= -> ->]|I0]; [now rewrite String.eqb_refl|].
  destruct (String.eqb_spec k k') as [->|_]; [|now apply IH]. exfalso. apply N1. apply in_map_iff. exists (k', a). auto.
Qed.
Lemma look_none {A} k (l : list (string * A)) : look k l = None <-> ~ In k (map fst l).
Proof.
  split.
  - intros H I0. induction l as [|[k' x] l IH]; [contradiction|]. cbn in H. destruct (String.eqb_spec k k') as [->|N]; [discriminate|]. destruct I0 as [E|I0]; [now apply N | now apply IH].
  - intros H. induction l as [|[k' x] l IH]; [reflexivity|]. cbn. destruct (String.eqb_spec k k') as [->|N]; [exfalso; apply H; now left | apply IH; intros I0; apply H; now right].
Qed.
Lemma look_perm {A} k (l m : list (string * A)) : NoDup (map fst l) -> Permutation l m -> look k m = look k l.
Proof.
  intros N P. destruct (look k l) as [a|] eqn:E.
  - apply In_look; [apply (Permutation_NoDup (Permutation_map fst P) N)|]. apply (Permutation_in _ P). now apply look_In.
  - apply look_none. apply look_none in E. intros I0. apply E. apply (Permutation_in _ (Permutation_map fst (Permutation_sym P)) I0).
Qed.
Lemma look_ordered {A} k (l : list (string * A)) : NoDup (map fst l) -> look k (ordered l) = look k l.
Proof. intros N. apply look_perm; [exact N|]. symmetry. apply ordered_perm. Qed.
Lemma ordered_keys {A} (l : list (string * A)) : NoDup (map fst l) -> NoDup (map fst (ordered l)).
Proof. apply Permutation_NoDup. apply Permutation_map. symmetry. apply ordered_perm. Qed.

(** ** Everything in a group *)
Definition into {A} (f : A -> option node) (e : string * A) (n : string * node) : Prop := fst e = fst n /\ f (snd e) = Some (snd n).
Lemma into_keys {A} (f : A -> option node) l m : Forall2 (into f) l m -> map fst m = map fst l.
Proof. induction 1 as [|e n l m [K _] _ IH]; cbn; [reflexivity | now rewrite IH, K]. Qed.
Lemma nodup_app_r {A} (l m : list A) : NoDup (l ++ m) -> NoDup m.
Proof. induction l as [|x l IH]; [auto|]. cbn. intros N. inversion N; auto. Qed.
Lemma write_all_ok {A} (f : A -> option node) a0 d0 : forall l ks, (forall k a, In (k, a) l -> f a <> None) -> NoDup (map fst ks ++ map fst l) ->
  exists m, write_all f l (Node a0 d0 ks) = Some (Node a0 d0 (ks ++ m)) /\ Forall2 (into f) l m.
Proof.
  induction l as [|[k a] l IH]; intros ks F N; cbn [write_all]; [exists []; rewrite app_nil_r; split; [reflexivity | constructor]|].
  destruct (f a) as [c|] eqn:E; [|exfalso; apply (F k a); [now left | exact E]]. cbn [create].
  assert (K : look k ks = None). { apply look_none. intros I0. cbn [map fst] in N. apply NoDup_remove_2 in N. apply N. apply in_or_app. now left. }
  rewrite K. destruct (IH (ks ++ [(k, c)])) as (m & W & R).
  - intros k' a' I0. apply (F k'). now right.
  - rewrite map_app, <- app_assoc. exact N.
  - exists ((k, c) :: m). rewrite <- app_assoc in W. split; [exact W | constructor; [split; [reflexivity | exact E] | exact R]].
Qed.
Lemma write_all_dup {A} (f : A -> option node) a0 d0 : forall l ks, NoDup (map fst ks) -> ~ NoDup (map fst ks ++ map fst l) -> write_all f l (Node a0 d0 ks) = None.
Proof.
  induction l as [|[k a] l IH]; intros ks N D; [rewrite app_nil_r in D; contradiction|]. cbn [write_all]. destruct (f a) as [c|]; [|reflexivity]. cbn [create]. destruct (look k ks) eqn:E; [reflexivity|]. apply IH.
  - rewrite map_app. cbn. apply (Permutation_NoDup (Permutation_app_comm [k] (map fst ks))). constructor; [now apply look_none | exact N].
  - rewrite map_app, <- app_assoc. exact D.
Qed.
Lemma read_all_ok {A} (f : A -> option node) (h : node -> option A) a0 d0 l m : (forall k a n, In (k, a) l -> f a = Some n -> h n = Some a) -> Forall2 (into f) l m ->
  read_all h (Node a0 d0 m) = Some (ordered l).
Proof.
  intros H F. unfold read_all, items. apply Law_Proofs.some_all.
  assert (G : Forall2 (into f) (ordered l) (ordered m)) by (apply ordered_both; [now intros e n [K _] | exact F]).
  assert (I0 : forall e, In e (ordered l) -> In e l) by (intros e; apply Permutation_in, ordered_perm). clear F.
  induction G as [|e n l' m' [K E] G IH]; constructor; [|apply IH; intros; apply I0; now right].
  destruct e as [k a], n as [k' c]. cbn in *. subst k'. rewrite (H k a c); [reflexivity | apply I0; now left | exact E].
Qed.

(** ** Names *)
Lemma append_k s : ends_in_k (String.append s "K") = true.
Proof. induction s as [|c s IH]; [reflexivity|]. cbn [String.append ends_in_k]. destruct (String.append s "K") eqn:E; [destruct s; discriminate | exact IH]. Qed.
Lemma kelvin_k q : ends_in_k (kelvin q) = true. Proof. apply append_k. Qed.
Lemma gridded_k d t : gridded d t -> ends_in_k t = true.
Proof. intros [I0| ->]; [|reflexivity]. unfold temperatures in I0. apply in_map_iff in I0. destruct I0 as (q & <- & _). apply kelvin_k. Qed.
Lemma uint_digit u t : String.prefix "product_" (String.append (NilZero.string_of_uint u) t) = false.
Proof. destruct u; reflexivity. Qed.
Lemma kelvin_product q : String.prefix "product_" (kelvin q) = false.
Proof. unfold kelvin, NilZero.string_of_int. destruct (Z.to_int _); [apply uint_digit | reflexivity]. Qed.
Lemma gridded_product d t : gridded d t -> String.prefix "product_" t = false.
Proof. intros [I0| ->]; [|reflexivity]. unfold temperatures in I0. apply in_map_iff in I0. destruct I0 as (q & <- & _). apply kelvin_product. Qed.
Lemma empty_k u : ends_in_k (NilEmpty.string_of_uint u) = false.
Proof. induction u as [|u IH|u IH|u IH|u IH|u IH|u IH|u IH|u IH|u IH|u IH]; [reflexivity|..]; cbn [NilEmpty.string_of_uint ends_in_k]; destruct (NilEmpty.string_of_uint u); (reflexivity || exact IH). Qed.
Lemma digits_k i : ends_in_k (digits i) = false.
Proof. unfold digits. destruct (Nat.to_uint i) as [|u|u|u|u|u|u|u|u|u|u]; [reflexivity | apply (empty_k (Decimal.D0 u)) | apply (empty_k (Decimal.D1 u)) | apply (empty_k (Decimal.D2 u)) | apply (empty_k (Decimal.D3 u)) | apply (empty_k (Decimal.D4 u)) | apply (empty_k (Decimal.D5 u)) | apply (empty_k (Decimal.D6 u)) | apply (empty_k (Decimal.D7 u)) | apply (empty_k (Decimal.D8 u)) | apply (empty_k (Decimal.D9 u))]. Qed.
Lemma append_ends p s : s <> EmptyString -> ends_in_k (String.append p s) = ends_in_k s.
Proof. intros N. induction p as [|c p IH]; [reflexivity|]. cbn [String.append ends_in_k]. destruct (String.append p s) eqn:E; [destruct p; [now subst | discriminate] | exact IH]. Qed.
Lemma digits_some i : digits i <> EmptyString.
Proof. unfold digits. destruct (Nat.to_uint i); discriminate. Qed.
Lemma product_k i : ends_in_k (numbered "product_" i) = false.
Proof. unfold numbered. rewrite append_ends by apply digits_some. apply digits_k. Qed.
Lemma prefix_append p s : String.prefix p (String.append p s) = true.
Proof. induction p as [|c p IH]; [now destruct s|]. cbn. destruct (Ascii.ascii_dec c c) as [_|N]; [exact IH | now destruct N]. Qed.
Lemma product_prefix i : String.prefix "product_" (numbered "product_" i) = true. Proof. apply prefix_append. Qed.
Lemma reaction_prefix mt : String.prefix "reaction_" (reaction_name mt) = true. Proof. apply prefix_append. Qed.
(** The number a name stands for, leading zeros or not. *)
Definition number (s : string) : option nat := option_map Nat.of_uint (NilEmpty.uint_of_string s).
Lemma number_digits i : number (digits i) = Some i.
Proof.
  unfold number, digits. assert (N : Nat.to_uint i <> Decimal.Nil). { intros N. pose proof (f_equal Nat.of_uint N) as X. rewrite Unsigned.of_to in X. cbn in X. subst i. discriminate. }
  assert (E : NilZero.string_of_uint (Nat.to_uint i) = NilEmpty.string_of_uint (Nat.to_uint i)) by (destruct (Nat.to_uint i); [now destruct N | reflexivity..]).
  rewrite E, NilEmpty.usu. cbn. now rewrite Unsigned.of_to.
Qed.
Lemma number_zeros n s : number (zeros n s) = number s.
Proof. induction n as [|n IH]; [reflexivity|]. cbn [zeros]. rewrite <- IH. unfold number. cbn. destruct (NilEmpty.uint_of_string (zeros n s)); reflexivity. Qed.
Lemma reaction_name_inj a b : 0 <= a -> 0 <= b -> reaction_name a = reaction_name b -> a = b.
Proof.
  intros A B H. unfold reaction_name in H. apply append_inj in H. apply (f_equal number) in H. rewrite !number_zeros, !number_digits in H. injection H as H. lia.
Qed.

(** ** Reactions *)
Definition stored_xsec (x : xsec) : node :=
  match x with
  | Table f idx => Node [] None [("xs"%string, Node [("threshold_idx"%string, VInt (match idx with Some i => i + 1 | None => 1 end))] (Some (VNums (fy f))) [])]
  | Added _ => group
  end.
Lemma write_xs_ok a0 d0 : forall l ks, (forall t x, In (t, x) l -> xsec_fine x) -> NoDup (map fst ks ++ map fst l) ->
  write_xs l (Node a0 d0 ks) = Some (Node a0 d0 (ks ++ map (fun e => (fst e, stored_xsec (snd e))) l)).
Proof.
  induction l as [|[t x] l IH]; intros ks F N; cbn [write_xs map]; [now rewrite app_nil_r|].
  assert (X : xs_node x = Some (stored_xsec x)). { specialize (F t x (or_introl eq_refl)). destruct x; [reflexivity | contradiction]. } rewrite X. cbn [create].
  assert (K : look t ks = None). { apply look_none. intros I0. cbn [map fst] in N. apply NoDup_remove_2 in N. apply N. apply in_or_app. now left. }
  rewrite K, IH; [now rewrite <- app_assoc | intros t' x' I0; apply (F t'); now right | rewrite map_app, <- app_assoc; exact N].
Qed.
Lemma look_app {A} k (l m : list (string * A)) : look k (l ++ m) = match look k l with Some a => Some a | None => look k m end.
Proof. induction l as [|[k' a] l IH]; [reflexivity|]. cbn. destruct (String.eqb k k'); [reflexivity | exact IH]. Qed.
Lemma write_products_ok a0 d0 : forall l i ks, Forall product_fine l -> (forall j, (i <= j)%nat -> look (numbered "product_" j) ks = None) ->
  exists m ps, write_products i l (Node a0 d0 ks) = Some (Node a0 d0 (ks ++ m)) /\ map fst m = map (numbered "product_") (seq i (length l)) /\
    Forall2 (fun n p => product_of (snd n) = Some p) m ps /\ Forall2 (fun p p' => kept_product p p' /\ (plain_product p -> p' = p)) l ps.
Proof.
  induction l as [|p l IH]; intros i ks F K; cbn [write_products]; [exists [], []; rewrite app_nil_r; repeat split; constructor|]. inversion F as [|? ? F1 F2]; subst.
  destruct (product_back p F1) as (g & p' & E & O & KP & PP). rewrite E. cbn [create]. rewrite K by lia.
  destruct (IH (S i) (ks ++ [(numbered "product_" i, g)]) F2) as (m & ps & W & N & O' & K').
  - intros j J. rewrite look_app_ne; [apply K; lia|]. rewrite numbered_eqb. apply Nat.eqb_neq. lia.
  - exists ((numbered "product_" i, g) :: m), (p' :: ps). rewrite <- app_assoc in W. split; [exact W|]. cbn [map length seq fst]. rewrite N. repeat split; constructor; auto.
Qed.
Lemma read_xs_ok energy : forall l, (forall t g, In (t, g) l -> ends_in_k t = true -> exists x es, g = stored_xsec x /\ xsec_fine x /\ look t energy = Some es) ->
  exists res, read_xs energy l = Some res /\
    forall t, match look t res with
              | Some x' => exists x es, ends_in_k t = true /\ look t l = Some (stored_xsec x) /\ look t energy = Some es /\ kept_xsec es x x'
              | None => ends_in_k t = false \/ look t l = None
              end.
Proof.
  induction l as [|[t g] l IH]; intros H; cbn [read_xs]; [exists []; split; [reflexivity|]; intros t; cbn; auto|].
  destruct IH as (res & R & L); [intros t' g' I0; apply H; now right|]. destruct (ends_in_k t) eqn:E.
  - destruct (H t g (or_introl eq_refl) E) as (x & es & -> & XF & Y). destruct x as [f idx|]; [|contradiction].
    cbn [stored_xsec kid look String.eqb Ascii.eqb Bool.eqb value attr nums integer]. rewrite Y, R. eexists. split; [reflexivity|]. intros t'. cbn [look]. destruct (String.eqb_spec t' t) as [->|N].
    + exists (Table f idx), es. repeat split; auto. exists f, idx. split; [reflexivity|]. destruct idx as [i|]; cbn zeta; [now replace (i + 1 - 1) with i by lia | reflexivity].
    + apply L.
  - exists res. split; [exact R|]. intros t'. cbn [look]. specialize (L t'). destruct (String.eqb_spec t' t) as [->|N]; [|exact L]. destruct (look t res); [|now left]. destruct L as (? & ? & L & _). congruence.
Qed.
Lemma insert_count {A} (f : string * A -> bool) e l : length (filter f (insert e l)) = length (filter f (e :: l)).
Proof. induction l as [|x l IH]; [reflexivity|]. cbn [insert]. destruct (String.leb _ _); [reflexivity|]. cbn [filter] in *. destruct (f x), (f e); cbn [length] in *; lia. Qed.
Lemma ordered_count {A} (f : string * A -> bool) l : length (filter f (ordered l)) = length (filter f l).
Proof. induction l as [|e l IH]; [reflexivity|]. unfold ordered in *. cbn [fold_right]. rewrite insert_count. cbn [filter]. destruct (f e); cbn [length]; lia. Qed.
Lemma filter_all {A} (f : A -> bool) l : (forall x, In x l -> f x = true) -> filter f l = l.
Proof. induction l as [|x l IH]; intros H; [reflexivity|]. cbn. rewrite H by now left. f_equal. apply IH. intros y Y. apply H. now right. Qed.
Lemma filter_none {A} (f : A -> bool) l : (forall x, In x l -> f x = false) -> filter f l = [].
Proof. induction l as [|x l IH]; intros H; [reflexivity|]. cbn. rewrite H by now left. apply IH. intros y Y. apply H. now right. Qed.
Lemma numbered_nodup p : forall n i, NoDup (map (numbered p) (seq i n)).
Proof.
  intros n i. apply FinFun.Injective_map_NoDup; [|apply seq_NoDup]. intros a b H. apply digits_inj. now apply append_inj in H.
Qed.
Lemma nodup_join {A} (l m : list A) : NoDup l -> NoDup m -> (forall x, In x l -> In x m -> False) -> NoDup (l ++ m).
Proof. induction 1 as [|x l N H IH]; intros M D; [exact M|]. cbn. constructor; [|apply IH; [exact M | intros y Y; apply D; now right]]. intros I0. apply in_app_or in I0. destruct I0 as [I0|I0]; [contradiction | apply (D x); [now left | exact I0]]. Qed.
(** A reaction alone: what [rx_of] gives has no derived products yet. *)
Definition read_as (d : nuclide) (r r' : nrx) : Prop :=
  x_mt r' = x_mt r /\ x_q r' = x_q r /\ x_cm r' = x_cm r /\ x_redundant r' = x_redundant r /\
  (forall t, both (kept_xsec (at_temperature d t)) (look t (x_xs r)) (look t (x_xs r'))) /\
  Forall2 (fun p p' => kept_product p p' /\ (plain_product p -> p' = p)) (x_products r) (x_products r').
Lemma rx_back d energy r : (forall t, gridded d t -> look t energy = look t (d_energy d)) -> rx_fine d r ->
  exists n r', rx_node r = Some n /\ rx_of energy n = Some r' /\ read_as d r r'.
Proof.
  intros EN (N & _ & XF & PF & _). unfold rx_node. rewrite write_xs_ok; [|intros t x I0; now destruct (XF t x I0) as (_ & _ & X) | exact N]. cbn [app].
  set (xk := map (fun e => (fst e, stored_xsec (snd e))) (x_xs r)).
  assert (XK : map fst xk = map fst (x_xs r)) by (unfold xk; rewrite map_map; reflexivity).
  assert (G : forall t, In t (map fst xk) -> gridded d t). { intros t I0. rewrite XK in I0. apply in_map_iff in I0. destruct I0 as ([t' x] & <- & I0). now destruct (XF t' x I0). }
  destruct (write_products_ok [("mt"%string, VInt (x_mt r)); ("Q_value"%string, VNum (x_q r)); ("center_of_mass"%string, int_of (x_cm r)); ("redundant"%string, int_of (x_redundant r))] None (x_products r) 0 xk PF) as (m & ps & W & MK & MO & KP).
  { intros j _. apply look_none. intros I0. apply G, gridded_k in I0. rewrite product_k in I0. discriminate. }
  rewrite W.
  assert (ND : NoDup (map fst (xk ++ m))).
  { rewrite map_app. apply nodup_join; [rewrite XK; exact N | rewrite MK; apply numbered_nodup|]. intros t I1 I2. apply G, gridded_k in I1. rewrite MK in I2. apply in_map_iff in I2. destruct I2 as (i & <- & _). rewrite product_k in I1. discriminate. }
  assert (LX : forall t, look t xk = option_map stored_xsec (look t (x_xs r))). { intros t. unfold xk. clear. induction (x_xs r) as [|[t' x] l IH]; [reflexivity|]. cbn. destruct (String.eqb t t'); [reflexivity | exact IH]. }
  destruct (read_xs_ok energy (ordered (xk ++ m))) as (res & R & L).
  { intros t g I0 K. apply (Permutation_in _ (ordered_perm _)) in I0. apply in_app_or in I0. destruct I0 as [I0|I0].
    - unfold xk in I0. apply in_map_iff in I0. destruct I0 as ([t' x] & [= <- <-] & I0). destruct (XF t' x I0) as (GT & LE & F). cbn [fst snd]. destruct (look t' (d_energy d)) as [es|] eqn:E; [|contradiction]. exists x, es. repeat split; [exact F|]. rewrite EN by exact GT. exact E.
    - exfalso. apply (in_map fst) in I0. rewrite MK in I0. apply in_map_iff in I0. destruct I0 as (i & E & _). cbn [fst] in E. rewrite <- E, product_k in K. discriminate. }
  assert (CP : count_products (ordered (xk ++ m)) = length (x_products r)).
  { unfold count_products. rewrite ordered_count, filter_app, app_length. rewrite filter_none, filter_all.
    - cbn. rewrite <- (map_length fst m), MK, map_length, seq_length. reflexivity.
    - intros [t g] I0. apply (in_map fst) in I0. rewrite MK in I0. apply in_map_iff in I0. destruct I0 as (i & E & _). cbn [fst] in *. rewrite <- E. apply product_prefix.
    - intros [t g] I0. apply (in_map fst) in I0. apply G in I0. now apply gridded_product in I0. }
  eexists. exists (mkNrx (x_mt r) (x_q r) (x_cm r) (x_redundant r) res ps []). split; [reflexivity|]. split.
  - unfold rx_of, items. cbn [attr look String.eqb Ascii.eqb Bool.eqb integer num int_of]. rewrite R, CP.
    rewrite Law_Proofs.some_all with (l' := ps).
    + now destruct (x_cm r), (x_redundant r).
    + assert (KM : forall i g, In (numbered "product_" i, g) m -> kid (Node [("mt"%string, VInt (x_mt r)); ("Q_value"%string, VNum (x_q r)); ("center_of_mass"%string, int_of (x_cm r)); ("redundant"%string, int_of (x_redundant r))] None (xk ++ m)) (numbered "product_" i) = Some g).
      { intros i g I0. cbn [kid]. apply In_look; [exact ND|]. apply in_or_app. now right. }
      revert KM. set (nd := Node _ _ _). clearbody nd. clear - MK MO KP. assert (LP : length ps = length (x_products r)) by (apply Law_Proofs.F2_len in KP; now symmetry). rewrite <- LP in *. clear KP LP.
      revert MK. generalize 0%nat. induction MO as [|[k g] p m ps O MO IH]; intros i MK KM; [constructor|]. cbn [length seq map fst] in *. injection MK as -> MK. constructor.
      * rewrite (KM i g); [exact O | now left].
      * apply IH; [exact MK|]. intros j h I0. apply KM. now right.
  - repeat split; try reflexivity; [|exact KP]. cbn [x_xs]. intros t. specialize (L t). rewrite look_ordered, look_app, LX in L by exact ND.
    assert (LM : ends_in_k t = true -> look t m = None). { intros K. apply look_none. rewrite MK. intros I0. apply in_map_iff in I0. destruct I0 as (i & <- & _). rewrite product_k in K. discriminate. }
    destruct (look t (x_xs r)) as [x|] eqn:X; cbn [option_map] in L.
    + assert (I0 := look_In _ _ _ X). destruct (XF t x I0) as (GT & LE & F). pose proof (gridded_k _ _ GT) as K. destruct (look t res) as [x'|].
      * destruct L as (y & es & _ & SY & LY & KX). cbn [both]. unfold at_temperature. rewrite <- EN, LY by exact GT. injection SY as SY. destruct KX as (f & idx & -> & KX). destruct x as [f0 idx0|]; [|contradiction]. cbn in SY. injection SY as SI SF. exists f0, idx0. split; [reflexivity|]. rewrite KX. cbn [xsec_fine] in F.
        assert (II : match idx with Some i => i | None => 0 end = match idx0 with Some i => i | None => 0 end) by (destruct idx, idx0; lia). cbn zeta. now rewrite II, SF.
      * destruct L as [L|L]; congruence.
    + destruct (look t res) as [x'|]; [|exact I]. destruct L as (y & es & K & SY & _). rewrite LM in SY by exact K. discriminate.
Qed.

(** ** The reactions of a nuclide *)
Lemma skipped_written r : skipped r = false <-> written r.
Proof.
  unfold skipped, written. rewrite andb_false_iff, negb_false_iff, !orb_true_iff, !existsb_exists. split.
  - intros [H|[[(p & I0 & P)|(m & I0 & E)]|E]]; [now left | | |].
    + right. left. exists p. split; [exact I0 | now apply negb_true_iff].
    + right. right. apply Z.eqb_eq in E. rewrite E. now right.
    + right. right. apply Z.eqb_eq in E. rewrite E. now left.
  - intros [H|[(p & I0 & P)|[E|E]]]; [now left | right..].
    + left. left. exists p. split; [exact I0 | now apply negb_true_iff].
    + right. apply Z.eqb_eq. now symmetry.
    + left. right. exists (x_mt r). split; [exact E | apply Z.eqb_refl].
Qed.
Definition in_file (l : list (Z * nrx)) : list (string * nrx) := map (fun e => (reaction_name (x_mt (snd e)), snd e)) (filter (fun e => negb (skipped (snd e))) l).
Definition first_yield (l : list (Z * nrx)) (t : node) : Prop :=
  exists pre mt r post p rest, l = pre ++ (mt, r) :: post /\ (forall mt r, In (mt, r) pre -> written r -> x_derived r = []) /\ written r /\ x_derived r = p :: rest /\ product_node p group = Some t.
Lemma write_reactions_ok d a0 d0 : forall l ks nu0, (forall mt r, In (mt, r) l -> written r -> rx_fine d r) -> NoDup (map fst ks ++ map fst (in_file l)) ->
  exists m nu, write_reactions l (Node a0 d0 ks) nu0 = Some (Node a0 d0 (ks ++ m), nu) /\ Forall2 (into rx_node) (in_file l) m /\
    match nu0 with
    | Some _ => nu = nu0
    | None => (nu = None /\ forall mt r, In (mt, r) l -> written r -> x_derived r = []) \/ exists t, nu = Some t /\ first_yield l t
    end.
Proof.
  induction l as [|[mt r] l IH]; intros ks nu0 F N; cbn [write_reactions].
  - exists [], nu0. rewrite app_nil_r. split; [reflexivity|]. split; [constructor|]. destruct nu0; [reflexivity|]. left. split; [reflexivity | contradiction].
  - assert (F' : forall mt r, In (mt, r) l -> written r -> rx_fine d r) by (intros mt' r' I0; apply (F mt'); now right). unfold in_file in N |- *. cbn [filter snd] in N |- *. destruct (skipped r) eqn:S; cbn [negb] in N |- *.
    + destruct (IH ks nu0 F' N) as (m & nu & W & R & T). exists m, nu. split; [exact W|]. split; [exact R|]. destruct nu0; [exact T|].
      assert (NW : ~ written r) by (intros X; apply skipped_written in X; congruence).
      destruct T as [[E T]|(t & E & pre & mt' & r' & post & p & rest & -> & P & X)]; [left; split; [exact E|]; intros mt' r' [[= <- <-]|I0]; [contradiction | now apply (T mt')]|].
      right. exists t. split; [exact E|]. exists ((mt, r) :: pre), mt', r', post, p, rest. split; [reflexivity|]. split; [|exact X]. intros m2 r2 [[= <- <-]|I0]; [contradiction | now apply (P m2)].
    + pose proof (proj1 (skipped_written r) S) as WR. pose proof (F mt r (or_introl eq_refl) WR) as RF.
      destruct (rx_back d (d_energy d) r (fun t _ => eq_refl) RF) as (n & _ & E & _). rewrite E. cbn [create map fst snd] in N |- *.
      assert (K : look (reaction_name (x_mt r)) ks = None). { apply look_none. intros I0. apply NoDup_remove_2 in N. apply N. apply in_or_app. now left. }
      rewrite K.
      assert (NT : exists nu1, match nu0, x_derived r with None, p :: _ => option_map Some (product_node p group) | _, _ => Some nu0 end = Some nu1 /\
        match nu0 with Some _ => nu1 = nu0 | None => (nu1 = None /\ x_derived r = []) \/ exists t p rest, nu1 = Some t /\ x_derived r = p :: rest /\ product_node p group = Some t end).
      { destruct nu0; [exists (Some n0); auto|]. destruct (x_derived r) as [|p rest] eqn:D; [exists None; auto|]. destruct RF as (_ & _ & _ & _ & DF). rewrite D in DF. inversion DF as [|? ? D1 _]; subst. destruct (product_back p D1) as (t & _ & T & _). exists (Some t). rewrite T. split; [reflexivity|]. right. exists t, p, rest. auto. }
      destruct NT as (nu1 & N1 & T1). rewrite N1.
      destruct (IH (ks ++ [(reaction_name (x_mt r), n)]) nu1 F') as (m & nu & W & R & T); [rewrite map_app, <- app_assoc; exact N|].
      exists ((reaction_name (x_mt r), n) :: m), nu. rewrite <- app_assoc in W. split; [exact W|]. split; [constructor; [split; [reflexivity | exact E] | exact R]|].
      destruct nu0 as [n0|]; [subst nu1; exact T|]. destruct T1 as [[-> D]|(t & p & rest & -> & D & PT)].
      * destruct T as [[EN T]|(t & EN & pre & mt' & r' & post & p & rest & -> & P & X)]; [left; split; [exact EN|]; intros mt' r' [[= <- <-]|I0]; [intros _; exact D | now apply (T mt')]|].
        right. exists t. split; [exact EN|]. exists ((mt, r) :: pre), mt', r', post, p, rest. split; [reflexivity|]. split; [|exact X]. intros m2 r2 [[= <- <-]|I0]; [intros _; exact D | now apply (P m2)].
      * right. exists t. split; [exact T|]. exists [], mt, r, l, p, rest. repeat split; try assumption. contradiction.
Qed.
Lemma assign_new {V} k (v : V) l : ~ In k (map fst l) -> assign k v l = l ++ [(k, v)].
Proof. induction l as [|[k' v'] l IH]; intros N; [reflexivity|]. cbn. destruct (Z.eqb_spec k k') as [->|_]; [exfalso; apply N; now left|]. f_equal. apply IH. intros I0. apply N. now right. Qed.
Lemma fission_iff mt : existsb (Z.eqb mt) [18; 19; 20; 21; 38] = true <-> fission mt.
Proof. unfold fission. rewrite existsb_exists. split; [intros (x & I0 & E); apply Z.eqb_eq in E; now subst | intros I0; exists mt; split; [exact I0 | apply Z.eqb_refl]]. Qed.
Lemma read_reactions_ok d g energy nu : total_nu g = Some nu -> (forall t, gridded d t -> look t energy = look t (d_energy d)) ->
  forall W K, Forall2 (into rx_node) W K -> (forall k r, In (k, r) W -> String.prefix "reaction_" k = true /\ rx_fine d r) -> forall data, NoDup (map fst data ++ map (fun e => x_mt (snd e)) W) ->
  exists res, loop (read_reaction g energy) K data = Some (data ++ res) /\ Forall2 (fun e x => fst x = x_mt (snd e) /\ kept_rx d nu (snd e) (snd x)) W res.
Proof.
  intros T EN W K F. induction F as [|[k r] [k' n] W K [KE E] F IH]; intros H data N; cbn [loop]; [exists []; rewrite app_nil_r; split; [reflexivity | constructor]|].
  cbn [fst snd map] in *. subst k'. destruct (H k r (or_introl eq_refl)) as [P RF]. destruct (rx_back d energy r EN RF) as (n' & r' & E' & O & A1 & A2 & A3 & A4 & A5 & A6). rewrite E in E'. injection E' as <-.
  unfold read_reaction at 1. cbn [fst snd]. rewrite P, O, A1.
  set (nu' := if existsb (Z.eqb (x_mt r)) [18; 19; 20; 21; 38] then nu else []).
  assert (NU : (if existsb (Z.eqb (x_mt r)) [18; 19; 20; 21; 38] then total_nu g else Some []) = Some nu') by (unfold nu'; destruct (existsb _ _); [exact T | reflexivity]). rewrite NU.
  set (r2 := mkNrx _ _ _ _ _ _ _). rewrite assign_new.
  2:{ intros I0. apply NoDup_remove_2 in N. apply N. apply in_or_app. now left. }
  destruct (IH (fun k r I0 => H k r (or_intror I0)) (data ++ [(x_mt r, r2)])) as (res & L & R).
  - rewrite map_app, <- app_assoc. exact N.
  - exists ((x_mt r, r2) :: res). rewrite <- app_assoc in L. split; [exact L|]. constructor; [|exact R]. cbn [fst snd]. split; [reflexivity|]. unfold r2, kept_rx. cbn [x_mt x_q x_cm x_redundant x_xs x_products x_derived]. rewrite A2, A3, A4.
    repeat split; try assumption; unfold nu'.
    + intros Fi. apply fission_iff in Fi. now rewrite Fi.
    + intros Fi. destruct (existsb _ _) eqn:X; [|reflexivity]. apply fission_iff in X. contradiction.
Qed.
Lemma reaction_In data mt r : reaction_at data mt = Some r -> In (mt, r) data.
Proof. unfold reaction_at. destruct (find _ data) as [[k v]|] eqn:E; [|discriminate]. intros [= <-]. apply find_some in E. destruct E as [I0 E]. cbn in *. apply Z.eqb_eq in E. now subst. Qed.
Lemma In_reaction data mt r : NoDup (map fst data) -> In (mt, r) data -> reaction_at data mt = Some r.
Proof.
  unfold reaction_at. induction data as [|[k v] data IH]; [contradiction|]. cbn [map find fst]. intros N I0. inversion N as [|? ? N1 N2]; subst. destruct I0 as [[= -> ->]|I0]; [now rewrite Z.eqb_refl|].
  destruct (Z.eqb_spec k mt) as [->|_]; [|now apply IH]. exfalso. apply N1. apply in_map_iff. exists (mt, r). auto.
Qed.
Lemma reaction_none data mt : reaction_at data mt = None <-> ~ In mt (map fst data).
Proof.
  unfold reaction_at. induction data as [|[k v] data IH]; cbn [find map fst]; [split; auto|]. destruct (Z.eqb_spec k mt) as [->|N]; cbn.
  - split; [discriminate | intros H; exfalso; apply H; now left].
  - rewrite IH. split; [intros A [B|B]; auto | auto].
Qed.
Lemma present_at {V} (data : list (Z * V)) mt : present data mt = true <-> In mt (map fst data).
Proof. unfold present. rewrite existsb_exists. split; [intros (e & I0 & E); apply Z.eqb_eq in E; subst; now apply in_map | intros I0; apply in_map_iff in I0; destruct I0 as (e & <- & I0); exists e; split; [exact I0 | apply Z.eqb_refl]]. Qed.
Lemma at_app data mt r m : ~ In mt (map fst data) -> reaction_at (data ++ [(mt, r)]) m = if m =? mt then Some r else reaction_at data m.
Proof.
  intros N. destruct (Z.eqb_spec m mt) as [->|D].
  - unfold reaction_at. induction data as [|[k v] data IH]; cbn [app find fst]; [now rewrite Z.eqb_refl|]. destruct (Z.eqb_spec k mt) as [->|_]; [exfalso; apply N; now left|]. apply IH. intros I0. apply N. now right.
  - unfold reaction_at. clear N. induction data as [|[k v] data IH]; cbn [app find fst]; [destruct (Z.eqb_spec mt m); [congruence | reflexivity]|]. destruct (Z.eqb k m); [reflexivity | exact IH].
Qed.

(** ** Sums *)
Definition kept_parts (data : Z -> option nrx) (parts : list Z) : list nrx := flat_map (fun m => match data m with Some r => [r] | None => [] end) parts.
Definition complete (temps : list string) (data : list (Z * nrx)) : Prop := forall mt r, reaction_at data mt = Some r -> forall t, In t temps -> look t (x_xs r) <> None.
Fixpoint descending (rs : list (Z * list Z)) : Prop :=
  match rs with [] => True | (mt, _) :: r => Forall (fun e => fst e < mt) r /\ descending r end.
(** What there is of the parts when [mt] has its turn. *)
Definition in_time (mt : Z) (data0 data' : list (Z * nrx)) (m : Z) : option nrx := if mt <? m then reaction_at data' m else reaction_at data0 m.
Lemma sum_xs_ok (rxs : list nrx) : forall temps, (forall r t, In r rxs -> In t temps -> look t (x_xs r) <> None) ->
  exists xs, all_some (map (fun t => match all_some (map (fun r => look t (x_xs r)) rxs) with Some l => Some (t, Added l) | None => None end) temps) = Some xs /\
    (forall t, In t temps -> exists l, look t xs = Some (Added l) /\ Forall2 (fun p x => look t (x_xs p) = Some x) rxs l) /\ (forall t, ~ In t temps -> look t xs = None).
Proof.
  induction temps as [|t temps IH]; intros H; [exists []; repeat split; contradiction|]. destruct IH as (xs & E & A & B); [intros r t' R T; apply H; [exact R | now right]|].
  assert (L : exists l, Forall2 (fun p x => look t (x_xs p) = Some x) rxs l).
  { clear - H. induction rxs as [|r rxs IH]; [exists []; constructor|]. destruct IH as (l & L); [intros r' t' R; apply H; now right|]. destruct (look t (x_xs r)) as [x|] eqn:X; [|exfalso; apply (H r t); [now left | now left | exact X]]. exists (x :: l). now constructor. }
  destruct L as (l & L). cbn [map all_some]. rewrite (Law_Proofs.some_all _ _ _ L), E. cbn [option_map]. exists ((t, Added l) :: xs). split; [reflexivity|]. split.
  - intros t' T. cbn [look]. destruct (String.eqb_spec t' t) as [->|N]; [exists l; auto|]. destruct T as [->|T]; [contradiction | now apply A].
  - intros t' T. cbn [look]. destruct (String.eqb_spec t' t) as [->|N]; [exfalso; apply T; now left|]. apply B. intros I0. apply T. now right.
Qed.
Lemma rebuild_ok g temps nu data0 : total_nu g = Some nu -> forall rs data, descending rs -> complete temps data ->
  (forall m parts, In (m, parts) rs -> forall m', m' <= m -> reaction_at data m' = reaction_at data0 m') ->
  exists data', loop (rebuild g temps) rs data = Some data' /\
    (forall mt r, reaction_at data mt = Some r -> reaction_at data' mt = Some r) /\
    (forall mt, reaction_at data mt = None -> (forall parts, ~ In (mt, parts) rs) -> reaction_at data' mt = None) /\
    (forall mt parts, In (mt, parts) rs -> reaction_at data mt = None ->
       (kept_parts (in_time mt data0 data') parts = [] -> reaction_at data' mt = None) /\
       (kept_parts (in_time mt data0 data') parts <> [] -> exists r', reaction_at data' mt = Some r' /\ sum_rx temps nu mt (kept_parts (in_time mt data0 data') parts) r')).
Proof.
  intros T. induction rs as [|[mt parts] rs IH]; intros data D C Z0; cbn [loop]; [exists data; repeat split; auto; contradiction|]. destruct D as (DR & D).
  assert (ST : exists data1, rebuild g temps data (mt, parts) = Some data1 /\ complete temps data1 /\ (forall m, m <> mt -> reaction_at data1 m = reaction_at data m) /\
    match reaction_at data mt with
    | Some r => reaction_at data1 mt = Some r
    | None => (kept_parts (reaction_at data) parts = [] -> reaction_at data1 mt = None) /\ (kept_parts (reaction_at data) parts <> [] -> exists r', reaction_at data1 mt = Some r' /\ sum_rx temps nu mt (kept_parts (reaction_at data) parts) r')
    end).
  { unfold rebuild. destruct (present data mt) eqn:P.
    - exists data. repeat split; auto. destruct (reaction_at data mt) eqn:E; [reflexivity|]. apply reaction_none in E. apply present_at in P. contradiction.
    - assert (NP : ~ In mt (map fst data)) by (intros I0; apply present_at in I0; congruence). assert (RN : reaction_at data mt = None) by now apply reaction_none. rewrite RN.
      change (flat_map _ parts) with (kept_parts (reaction_at data) parts). destruct (kept_parts (reaction_at data) parts) as [|r0 rxs] eqn:KP.
      + exists data. repeat split; auto. now intros H.
      + set (nu' := if mt =? 18 then nu else []). assert (NU : (if mt =? 18 then total_nu g else Some []) = Some nu') by (unfold nu'; destruct (mt =? 18); [exact T | reflexivity]). rewrite NU.
        destruct (sum_xs_ok (r0 :: rxs) temps) as (xs & E & A & B).
        { intros r t R. rewrite <- KP in R. unfold kept_parts in R. apply in_flat_map in R. destruct R as (m & _ & R). destruct (reaction_at data m) as [r1|] eqn:X; [|contradiction]. destruct R as [->|[]]. now apply (C m). }
        rewrite E, assign_new by exact NP. set (r2 := mkNrx _ _ _ _ _ _ _). exists (data ++ [(mt, r2)]). split; [reflexivity|]. split; [|split; [|split]].
        * intros m r. rewrite at_app by exact NP. destruct (Z.eqb m mt); [|apply C]. intros [= <-] t I0. destruct (A t I0) as (l & L & _). unfold r2. cbn [x_xs]. congruence.
        * intros m N. rewrite at_app by exact NP. apply Z.eqb_neq in N. now rewrite N.
        * discriminate.
        * intros _. exists r2. rewrite at_app, Z.eqb_refl by exact NP. split; [reflexivity|]. unfold sum_rx, r2. cbn [x_mt x_q x_cm x_redundant x_xs x_products x_derived]. repeat split; auto; unfold nu'.
          -- intros ->. reflexivity.
          -- intros N. apply Z.eqb_neq in N. now rewrite N. }
  destruct ST as (data1 & E & C1 & S1 & S2). rewrite E. rewrite Forall_forall in DR. destruct (IH data1 D C1) as (data' & L & K1 & K2 & K3).
  { intros m parts' I0 m' M. specialize (DR _ I0). cbn in DR. rewrite S1 by lia. apply (Z0 mt parts); [now left | lia]. }
  exists data'. split; [exact L|].
  assert (NR : forall parts', ~ In (mt, parts') rs) by (intros parts' I0; specialize (DR _ I0); cbn in DR; lia).
  assert (SAME : forall m, reaction_at data m = in_time mt data0 data' m).
  { intros m. unfold in_time. destruct (Z.ltb_spec mt m) as [M|M]; [|apply (Z0 mt parts); [now left | exact M]]. rewrite <- (S1 m) by lia. symmetry. destruct (reaction_at data1 m) eqn:X; [now apply K1|]. apply K2; [exact X|]. intros parts' I0. specialize (DR _ I0). cbn in DR. lia. }
  split; [|split].
  - intros m r R. apply K1. destruct (Z.eq_dec m mt) as [->|N]; [now rewrite R in S2 | rewrite S1; assumption].
  - intros m R NI. apply K2; [|intros parts' I0; apply (NI parts'); now right]. rewrite S1; [exact R|]. intros ->. apply (NI parts). now left.
  - intros m parts' I0 R. destruct I0 as [[= <- <-]|I0].
    + assert (KP : kept_parts (in_time mt data0 data') parts = kept_parts (reaction_at data) parts).
      { unfold kept_parts. apply flat_map_ext. intros m. now rewrite SAME. }
      rewrite KP. rewrite R in S2. destruct S2 as [S2 S3]. split.
      * intros H. apply K2; [now apply S2 | exact NR].
      * intros H. destruct (S3 H) as (r' & R' & SR). exists r'. split; [now apply K1 | exact SR].
    + apply K3; [exact I0|]. rewrite S1; [exact R|]. specialize (DR _ I0). cbn in DR. lia.
Qed.
Fixpoint descendingb (rs : list (Z * list Z)) : bool :=
  match rs with [] => true | (mt, _) :: r => forallb (fun e => fst e <? mt) r && descendingb r end.
Lemma descending_ok rs : descendingb rs = true -> descending rs.
Proof.
  induction rs as [|[mt parts] rs IH]; intros H; [exact I|]. cbn [descendingb] in H. apply andb_true_iff in H. destruct H as [H1 H2]. rewrite forallb_forall in H1.
  split; [|now apply IH]; apply Forall_forall; intros x X; apply Z.ltb_lt; auto.
Qed.
Lemma rules_descending : descending (rev Sums_Model.sum_rules).
Proof. apply descending_ok. reflexivity. Qed.

(** ** The nuclide *)
Lemma combine_fst {A B} (l : list A) (m : list B) : length l = length m -> map fst (combine l m) = l.
Proof. revert m. induction l as [|x l IH]; intros [|y m] H; try discriminate; [reflexivity|]. cbn. f_equal. apply IH. now injection H. Qed.
Lemma combine_snd {A B} (l : list A) (m : list B) : length l = length m -> map snd (combine l m) = m.
Proof. revert m. induction l as [|x l IH]; intros [|y m] H; try discriminate; [reflexivity|]. cbn. f_equal. apply IH. now injection H. Qed.
Lemma kts_names d : map fst (combine (temperatures d) (d_kts d)) = temperatures d.
Proof. apply combine_fst. apply map_length. Qed.
Lemma names_back d : map kelvin (map snd (ordered (combine (temperatures d) (d_kts d)))) = map fst (ordered (combine (temperatures d) (d_kts d))).
Proof.
  rewrite map_map. apply map_ext_in. intros [t q] I0. apply (Permutation_in _ (ordered_perm _)) in I0. cbn. unfold temperatures in I0. clear - I0. induction (d_kts d) as [|x l IH]; [contradiction|]. destruct I0 as [[= <- <-]|I0]; [reflexivity | now apply IH].
Qed.
Lemma grids_ok d : NoDup (temperatures d) -> (forall t, In t (temperatures d) -> look t (d_energy d) <> None) ->
  exists l, grids d = Some l /\ NoDup (map fst l) /\ forall t, (gridded d t -> look t l = look t (d_energy d)) /\ (~ gridded d t -> look t l = None).
Proof.
  intros N H. unfold grids.
  assert (E : exists l, all_some (map (fun t => match look t (d_energy d) with Some es => Some (t, es) | None => None end) (temperatures d)) = Some l /\ map fst l = temperatures d /\ (forall t, In t (temperatures d) -> look t l = look t (d_energy d))).
  { clear N. revert H. induction (temperatures d) as [|t l IH]; intros H; [exists []; repeat split; contradiction|]. destruct IH as (m & E & K & L); [intros t' I0; apply H; now right|]. cbn [map all_some].
    destruct (look t (d_energy d)) as [es|] eqn:X; [|exfalso; apply (H t); [now left | exact X]]. rewrite E. exists ((t, es) :: m). split; [reflexivity|]. split; [cbn; now rewrite K|].
    intros t' I0. cbn [look]. destruct (String.eqb_spec t' t) as [->|D]; [now symmetry|]. destruct I0 as [->|I0]; [contradiction | now apply L]. }
  destruct E as (l & E & K & L). rewrite E.
  assert (O : forall t, ~ In t (temperatures d) -> look t l = None) by (intros t T; apply look_none; rewrite K; exact T).
  assert (NG : forall t, ~ gridded d t -> ~ In t (temperatures d) /\ t <> "0K"%string) by (intros t G; split; intros X; apply G; [now left | now right]).
  destruct (look "0K" (d_energy d)) as [es|] eqn:Z0.
  - destruct (existsb (String.eqb "0K") (temperatures d)) eqn:X.
    + apply existsb_exists in X. destruct X as (t0 & X & Y). apply String.eqb_eq in Y. subst t0. exists l. split; [reflexivity|]. split; [rewrite K; exact N|]. intros t. split; [intros [G| ->]; now apply L | intros G; apply O; now apply NG].
    + assert (Y : ~ In "0K"%string (temperatures d)). { intros Y. assert (existsb (String.eqb "0K") (temperatures d) = true) by (apply existsb_exists; exists "0K"%string; split; [exact Y | reflexivity]). congruence. }
      exists (l ++ [("0K"%string, es)]). split; [reflexivity|]. split; [rewrite map_app, K; cbn; apply (Permutation_NoDup (Permutation_app_comm ["0K"%string] (temperatures d))); now constructor|].
      intros t. rewrite look_app. split.
      * intros [G| ->]; [rewrite L by exact G; destruct (look t (d_energy d)) eqn:W; [reflexivity | exfalso; now apply (H t)] | rewrite O by exact Y; rewrite Z0; reflexivity].
      * intros G. destruct (NG t G) as [G1 G2]. rewrite O by exact G1. cbn. apply String.eqb_neq in G2. now rewrite G2.
  - exists l. split; [reflexivity|]. split; [rewrite K; exact N|]. intros t. split; [|intros G; apply O; now apply NG]. intros [G| ->]; [now apply L|]. destruct (in_dec String.string_dec "0K"%string (temperatures d)) as [I0|I0]; [now apply L | rewrite O by exact I0; now symmetry].
Qed.
Lemma urr_back u : u_interp u = 2 \/ u_interp u = 5 -> exists n, urr_node u = Some n /\ urr_of n = Some u.
Proof. intros H. eexists. split; [reflexivity|]. unfold urr_of. evaluate. cbn [cube int_of integer]. destruct u as [es t i a b s]. cbn in *. destruct H as [->| ->]; now destruct s. Qed.
Lemma in_file_In l k r : In (k, r) (in_file l) <-> k = reaction_name (x_mt r) /\ written r /\ exists mt, In (mt, r) l.
Proof.
  unfold in_file. rewrite in_map_iff. split.
  - intros ([mt r'] & [= <- <-] & I0). apply filter_In in I0. destruct I0 as [I0 S]. cbn in *. split; [reflexivity|]. split; [apply skipped_written; now apply negb_true_iff | now exists mt].
  - intros (-> & W & mt & I0). exists (mt, r). split; [reflexivity|]. apply filter_In. split; [exact I0|]. cbn. apply skipped_written in W. now rewrite W.
Qed.
Lemma in_file_names l : NoDup (map fst l) -> (forall mt r, In (mt, r) l -> x_mt r = mt /\ 0 <= mt) -> NoDup (map fst (in_file l)) /\ NoDup (map (fun e => x_mt (snd e)) (in_file l)).
Proof.
  intros N H. induction l as [|[mt r] l IH]; [split; constructor|]. inversion N as [|? ? N1 N2]; subst. destruct IH as [A B]; [exact N2 | intros m r' I0; apply H; now right|]. unfold in_file in *. cbn [filter snd]. destruct (skipped r) eqn:S; cbn [negb]; [auto|]. cbn [map fst snd].
  destruct (H mt r (or_introl eq_refl)) as [E P]. rewrite E. split; constructor; try assumption; intros I0; apply N1; rewrite map_map in I0; apply in_map_iff in I0; destruct I0 as ([m r'] & Q & I0); apply filter_In in I0; destruct I0 as [I0 _]; destruct (H m r' (or_intror I0)) as [E' P']; cbn in Q; apply in_map_iff; exists (m, r'); (split; [|exact I0]); cbn.
  - rewrite E' in Q. now apply reaction_name_inj.
  - congruence.
Qed.
Lemma nuclide_back d : nuclide_fine d -> exists g d', nuclide_node d = Some g /\ nuclide_of (d_name d) g = Some d' /\ stored d d'.
Proof.
  intros (_ & HZ & HA & HM & HW & NT & HT & NR & HR & NU & HU). unfold nuclide_node.
  destruct (write_all_ok (fun q => Some (dataset (VNum q))) [] None (combine (temperatures d) (d_kts d)) []) as (mk & W1 & R1); [discriminate | cbn; now rewrite kts_names|].
  change (Node [] None []) with group in W1. rewrite W1. destruct (grids_ok d NT HT) as (es & E2 & N2 & L2). rewrite E2.
  destruct (write_all_ok (fun l => Some (dataset (VNums l))) [] None es []) as (me & W2 & R2); [discriminate | exact N2|]. change (Node [] None []) with group in W2. rewrite W2.
  destruct (in_file_names (d_rx d) NR) as [N3 N4]; [intros mt r I0; destruct (HR mt r I0) as (A & B & _); auto|].
  destruct (write_reactions_ok d [] None (d_rx d) [] None) as (mr & nu0 & W3 & R3 & T3); [intros mt r I0; now destruct (HR mt r I0) as (_ & _ & A) | exact N3|]. change (Node [] None []) with group in W3. rewrite W3.
  destruct (write_all_ok urr_node [] None (d_urr d) []) as (mu & W4 & R4); [intros k u I0 X; destruct (urr_back u (HU k u I0)) as (n & Y & _); congruence | exact NU|]. change (Node [] None []) with group in W4. cbn [app] in *.
  set (attrs := [("Z"%string, VInt (d_z d)); ("A"%string, VInt (d_a d)); ("metastable"%string, VInt (d_m d)); ("atomic_weight_ratio"%string, VNum (d_awr d))]).
  assert (G : exists g, match match nu0 with None => Some (Node attrs None [("kTs"%string, Node [] None mk); ("energy"%string, Node [] None me); ("reactions"%string, Node [] None mr)])
      | Some t => create "total_nu" t (Node attrs None [("kTs"%string, Node [] None mk); ("energy"%string, Node [] None me); ("reactions"%string, Node [] None mr)]) end with
      | Some g => match d_urr d with [] => Some g | _ :: _ => match write_all urr_node (d_urr d) group with Some u => create "urr" u g | None => None end end | None => None end = Some g /\
    (exists ks, g = Node attrs None ks) /\ kid g "kTs" = Some (Node [] None mk) /\ kid g "energy" = Some (Node [] None me) /\ kid g "reactions" = Some (Node [] None mr) /\ kid g "total_nu" = nu0 /\
    kid g "urr" = match d_urr d with [] => None | _ => Some (Node [] None mu) end).
  { rewrite W4. destruct nu0 as [t|], (d_urr d) as [|u us]; eexists; (split; [reflexivity|]); (split; [eexists; reflexivity|]); repeat split. }
  destruct G as (g & EG & (ks & GA) & G1 & G2 & G3 & G4 & G5). exists g.
  assert (TN : exists nu, total_nu g = Some nu /\ total_yield d nu).
  { unfold total_nu. rewrite G4. destruct T3 as [[-> T]|(t & -> & pre & mt & r & post & p & rest & E & P & W & D & PT)]; [exists []; split; [reflexivity | left; auto]|].
    assert (PF : product_fine p). { destruct (HR mt r) as (_ & _ & F); [rewrite E; apply in_or_app; right; now left|]. destruct (F W) as (_ & _ & _ & _ & F'). rewrite D in F'. now inversion F'. }
    destruct (product_back p PF) as (t' & p' & PT' & O & K & PP). rewrite PT in PT'. injection PT' as <-. exists [p']. rewrite O. split; [reflexivity|]. right. exists pre, mt, r, post, p, rest, p'. repeat split; auto; apply K. }
  destruct TN as (nu & TN & TY).
  assert (EN : forall t, gridded d t -> look t (ordered es) = look t (d_energy d)) by (intros t GT; rewrite look_ordered by exact N2; now apply L2).
  destruct (read_reactions_ok d g (ordered es) nu TN EN (ordered (in_file (d_rx d))) (ordered mr)) with (data := @nil (Z * nrx)) as (data & L3 & D3).
  { apply ordered_both; [now intros e n [K _] | exact R3]. }
  { intros k r I0. apply (Permutation_in _ (ordered_perm _)), in_file_In in I0. destruct I0 as (-> & W & mt & I0). split; [apply reaction_prefix|]. destruct (HR mt r I0) as (_ & _ & F). now apply F. }
  { cbn [map app]. apply (Permutation_NoDup (l := map (fun e => x_mt (snd e)) (in_file (d_rx d)))); [|exact N4]. apply Permutation_map. symmetry. apply ordered_perm. }
  cbn [app] in L3.
  assert (DK : map fst data = map (fun e => x_mt (snd e)) (ordered (in_file (d_rx d)))) by (clear - D3; induction D3 as [|e x l m [K _] _ IH]; cbn; [reflexivity | now rewrite K, IH]).
  assert (ND : NoDup (map fst data)). { rewrite DK. apply (Permutation_NoDup (l := map (fun e => x_mt (snd e)) (in_file (d_rx d)))); [|exact N4]. apply Permutation_map. symmetry. apply ordered_perm. }
  assert (FW : forall mt r, In (mt, r) (d_rx d) -> written r -> exists r', reaction_at data mt = Some r' /\ kept_rx d nu r r').
  { intros mt r I0 W. assert (J : In (reaction_name (x_mt r), r) (ordered (in_file (d_rx d)))). { apply (Permutation_in _ (Permutation_sym (ordered_perm _))). apply in_file_In. repeat split; [exact W | now exists mt]. }
    destruct (HR mt r I0) as (E & _). clear - D3 J ND E. assert (X : exists x, In x data /\ fst x = x_mt r /\ kept_rx d nu r (snd x)).
    { clear ND. induction D3 as [|e x l m K _ IH]; [contradiction|]. destruct J as [->|J]; [exists x; split; [now left | exact K]|]. destruct (IH J) as (y & Y & K'). exists y. split; [now right | exact K']. }
    destruct X as ([k r'] & X & K1 & K2). cbn in *. exists r'. split; [|exact K2]. apply In_reaction; [exact ND|]. congruence. }
  assert (BW : forall mt r', reaction_at data mt = Some r' -> exists r, In (mt, r) (d_rx d) /\ written r /\ kept_rx d nu r r').
  { intros mt r' R. apply reaction_In in R. clear - D3 R HR. assert (X : exists e, In e (ordered (in_file (d_rx d))) /\ mt = x_mt (snd e) /\ kept_rx d nu (snd e) r').
    { induction D3 as [|e x l m K _ IH]; [contradiction|]. destruct R as [->|R]; [exists e; split; [now left | exact K]|]. destruct (IH R) as (y & Y & K'). exists y. split; [now right | exact K']. }
    destruct X as ([k r] & X & -> & K). cbn [snd] in *. apply (Permutation_in _ (ordered_perm _)), in_file_In in X. destruct X as (_ & W & mt & I0). exists r. destruct (HR mt r I0) as (E & _). rewrite E. auto. }
  set (names := map fst (ordered (combine (temperatures d) (d_kts d)))).
  assert (NI : forall t, In t names <-> In t (temperatures d)). { intros t. rewrite <- (kts_names d). split; apply Permutation_in; [|apply Permutation_sym]; apply Permutation_map, ordered_perm. }
  destruct (rebuild_ok g names nu data TN (rev Sums_Model.sum_rules) data rules_descending) as (data' & L5 & S1 & S2 & S3).
  { intros mt r' R t I0. destruct (BW mt r' R) as (r & J & W & K). destruct (HR mt r J) as (_ & _ & F). destruct (F W) as (_ & CT & _). apply NI in I0. specialize (CT t I0). destruct K as (_ & _ & _ & _ & K & _). specialize (K t). destruct (look t (x_xs r)); [|contradiction]. now destruct (look t (x_xs r')). }
  { reflexivity. }
  assert (TH : forall mt parts, there (reaction_at data') (early d mt) parts (kept_parts (in_time mt data data') parts)).
  { intros mt parts. induction parts as [|m l IHl]; [constructor|]. unfold kept_parts. cbn [flat_map]. fold (kept_parts (in_time mt data data') l). unfold in_time at 1. destruct (Z.ltb_spec mt m) as [M|M].
    - destruct (reaction_at data' m) as [r'|] eqn:E; cbn [app]; [apply there_some; [exact E | now left | exact IHl] | apply there_none; [now left | exact IHl]].
    - destruct (reaction_at data m) as [r'|] eqn:E; cbn [app].
      + apply there_some; [now apply S1 | right | exact IHl]. destruct (BW m r' E) as (r & J & W & _). now exists r.
      + apply there_none; [right | exact IHl]. intros [X|(r & J & W)]; [lia|]. destruct (FW m r J W) as (r' & X & _). congruence. }
  assert (R5 : match kid g "urr" with None => Some [] | Some u => read_all urr_of u end = Some (ordered (d_urr d))).
  { rewrite G5. destruct (d_urr d) as [|u us] eqn:EU; [reflexivity|]. apply (read_all_ok urr_node); [|exact R4]. intros k a n I0 X. destruct (urr_back a (HU k a I0)) as (n' & Y & Z). rewrite X in Y. injection Y as <-. exact Z. }
  eexists. split; [|split].
  - rewrite <- EG. destruct (d_urr d); reflexivity.
  - assert (AT : attr g "Z" = Some (VInt (d_z d)) /\ attr g "A" = Some (VInt (d_a d)) /\ attr g "metastable" = Some (VInt (d_m d)) /\ attr g "atomic_weight_ratio" = Some (VNum (d_awr d))) by (rewrite GA; repeat split). destruct AT as (AT1 & AT2 & AT3 & AT4).
    unfold nuclide_of. rewrite AT1, AT2, AT3, AT4. cbn [integer num]. rewrite G1, G2, G3.
    rewrite (read_all_ok (fun q => Some (dataset (VNum q))) (fun n => num (value n)) [] None (combine (temperatures d) (d_kts d)) mk); [|intros k a n _ [= <-]; reflexivity | exact R1].
    rewrite (read_all_ok (fun l => Some (dataset (VNums l))) (fun n => nums (value n)) [] None es me); [|intros k a n _ [= <-]; reflexivity | exact R2].
    apply Z.leb_le in HZ, HA, HM. rewrite HZ, HA, HM. assert (Q : qltb 0 (d_awr d) = true) by now apply qltb_lt. rewrite Q. cbn [andb items]. rewrite L3, names_back. fold names. rewrite L5, R5. reflexivity.
  - split; [|split; [|split; [|split]]]; unfold same_nuclide, same_temperatures, same_grids, same_tables; cbn [d_endf d_name d_z d_a d_m d_awr d_kts d_energy d_rx d_urr].
    + repeat split.
    + split.
      * apply Permutation_trans with (l' := map snd (combine (temperatures d) (d_kts d))); [rewrite combine_snd; [reflexivity | apply map_length]|]. apply Permutation_map. symmetry. apply ordered_perm.
      * unfold temperatures at 1. cbn [d_kts]. rewrite names_back. apply sorted_keys, ordered_sorted.
    + intros t. rewrite look_ordered by exact N2. apply L2.
    + intros t. now apply look_ordered.
    + exists nu. split; [exact TY|]. split.
      * intros mt r I0 W. cbn [d_rx]. destruct (FW mt r I0 W) as (r' & A & B). exists r'. split; [now apply S1 | exact B].
      * intros mt NW. cbn [d_rx].
        assert (RN : reaction_at data mt = None). { destruct (reaction_at data mt) as [r'|] eqn:R; [|reflexivity]. exfalso. destruct (BW mt r' R) as (r & J & W & _). now apply (NW r). }
        split.
        -- intros parts I0. apply in_rev in I0. exists (kept_parts (in_time mt data data') parts). split; [apply TH|]. destruct (S3 mt parts I0 RN) as [A B]. split; [exact A|]. intros H. destruct (B H) as (r' & R & SR). exists r'. split; [exact R|].
           destruct SR as (B1 & B2 & B3 & B4 & B5 & B6 & B7 & B8 & B9). repeat split; auto; intros t; rewrite <- NI; [apply B8 | apply B9].
        -- intros NP. apply S2; [exact RN|]. intros parts I0. apply (NP parts). now apply in_rev.
Qed.
