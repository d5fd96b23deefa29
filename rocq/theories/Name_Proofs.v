From Coq Require Import ZArith List Bool Arith Ascii NArith Lia.
From Verif Require Import Text Dec PyNum Name_Model Name_Spec.
Import ListNotations.
Local Open Scope Z_scope.

(** *** The table of elements *)
Lemma position_sound s l z : position s l = Some z -> 0 <= z /\ nth_error l (Z.to_nat z) = Some s.
Proof.
  revert z. induction l as [|t l IH]; intros z; cbn [position]; [discriminate|]. destruct (eqt s t) eqn:E.
  - intros H. injection H as <-. apply eqt_eq in E. subst. split; [lia | reflexivity].
  - destruct (position s l) as [y|]; [|discriminate]. cbn [option_map]. intros H. assert (z = 1 + y) as -> by congruence. destruct (IH y eq_refl) as [A B].
    split; [lia|]. replace (Z.to_nat (1 + y)) with (S (Z.to_nat y)) by lia. exact B.
Qed.
Lemma position_complete l : NoDup l -> forall n s, nth_error l n = Some s -> position s l = Some (Z.of_nat n).
Proof.
  intros N. induction N as [|t l N1 N2 IH]; intros n s H; [destruct n; discriminate|]. cbn [position]. destruct n as [|n]; cbn in H.
  - injection H as <-. now rewrite eqt_refl.
  - destruct (eqt s t) eqn:E; [apply eqt_eq in E; subst; exfalso; apply N1; eapply nth_error_In; exact H|].
    rewrite (IH n s H). cbn [option_map]. f_equal. lia.
Qed.
Fixpoint nodupb (l : list text) : bool := match l with [] => true | x :: r => negb (existsb (eqt x) r) && nodupb r end.
Lemma nodupb_NoDup l : nodupb l = true -> NoDup l.
Proof.
  induction l as [|x l IH]; cbn; intros H; constructor; apply andb_true_iff in H as [H1 H2]; [|now apply IH].
  apply negb_true_iff in H1. intros I. apply eq_true_false_abs in H1; [easy|]. apply existsb_exists. exists x. split; [easy | apply eqt_refl].
Qed.
Lemma symbols_nodup : NoDup symbols.
Proof. apply nodupb_NoDup. vm_compute. reflexivity. Qed.
Lemma symbol_number z s : symbol z = Some s -> number s = Some z.
Proof.
  unfold symbol, number. destruct (z <? 0) eqn:E; [discriminate|]. intros H. rewrite (position_complete _ symbols_nodup _ _ H). f_equal. lia.
Qed.
Lemma number_symbol z s : number s = Some z -> symbol z = Some s.
Proof. unfold symbol, number. intros H. apply position_sound in H. destruct H as [A B]. destruct (z <? 0) eqn:E; [lia | exact B]. Qed.
Lemma symbol_known z : (exists s, symbol z = Some s) <-> 0 <= z <= 118.
Proof.
  unfold symbol. destruct (z <? 0) eqn:E; [split; [intros [s H]; discriminate | lia]|].
  split.
  - intros [s H]. assert (L : (Z.to_nat z < List.length symbols)%nat) by (apply nth_error_Some; congruence). cbn in L. lia.
  - intros H. destruct (nth_error symbols (Z.to_nat z)) as [s|] eqn:N; [now exists s|]. apply nth_error_None in N. cbn in N. lia.
Qed.

(** Shape of the symbols: one capital letter (or n), then small letters. *)
Definition shaped (s : text) : bool := match s with c :: r => (is_upper c || eqc c "n") && forallb is_lower r | [] => false end.
Lemma symbols_shaped : forallb shaped symbols = true.
Proof. vm_compute. reflexivity. Qed.
Lemma symbol_shaped z s : symbol z = Some s -> exists c r, s = c :: r /\ (is_upper c || eqc c "n") = true /\ forallb is_lower r = true.
Proof.
  unfold symbol. destruct (z <? 0); [discriminate|]. intros H. apply nth_error_In in H.
  pose proof (proj1 (forallb_forall _ _) symbols_shaped s H) as K. destruct s as [|c r]; [discriminate|]. cbn in K.
  apply andb_true_iff in K. exists c, r. easy.
Qed.

Lemma lowers_app l r : forallb is_lower l = true -> match r with c :: _ => is_lower c = false | [] => True end -> lowers (l ++ r) = (l, r).
Proof.
  induction l as [|c l IH]; cbn; intros H K.
  - destruct r as [|c r]; [easy|]. cbn. now rewrite K.
  - apply andb_true_iff in H as [H1 H2]. rewrite H1, (IH H2 K). reflexivity.
Qed.
Lemma digit_not_lower c : is_digit c = true -> is_lower c = false.
Proof.
  unfold is_digit, is_lower. cbn zeta. rewrite andb_true_iff, !Nat.leb_le. intros [H1 H2].
  apply andb_false_iff. left. apply Nat.leb_gt. lia.
Qed.
Lemma decZ_nat a : 0 <= a -> decZ a = decN (Z.to_N a).
Proof. destruct a; [easy | easy | lia]. Qed.

(** What may follow a name without changing what is read. *)
Definition harmless (m : Z) (rest : text) : Prop :=
  match rest with
  | [] => True
  | c :: _ => is_digit c = false /\ (m = 0 -> state_of rest = [])
  end.
Lemma zam_name z a m rest n : 0 <= a -> 0 <= m -> gnd_name z a m = Some n -> harmless m rest -> zam (n ++ rest) = Some (z, a, m).
Proof.
  intros Ha Hm. unfold gnd_name. destruct (symbol z) as [s|] eqn:S; [|discriminate]. cbn [option_map]. intros H HR.
  assert (En : n = (if 0 <? m then s ++ decZ a ++ str "_m" ++ decZ m else s ++ decZ a)%list) by exact (f_equal (fun o => match o with Some x => x | None => [] end) (eq_sym H)). clear H. subst n.
  pose proof (symbol_number z s S) as N. destruct (symbol_shaped z s S) as [c [r [-> [U L]]]].
  rewrite !decZ_nat by lia.
  destruct (decN_head (Z.to_N a)) as [d [ds [D1 D2]]].
  assert (FD : forallb is_digit (decN (Z.to_N a)) = true) by apply decN_digits.
  assert (X : exists tail, ((if 0 <? m then (c :: r) ++ decN (Z.to_N a) ++ str "_m" ++ decN (Z.to_N m) else (c :: r) ++ decN (Z.to_N a)) ++ rest)%list
              = (c :: r ++ decN (Z.to_N a) ++ tail)%list /\
            match tail with [] => true | c :: _ => negb (is_digit c) end = true /\
            match state_of tail with [] => 0 | _ => Z.of_N (dval (skipn 2 (state_of tail))) end = m).
  { destruct (0 <? m) eqn:E.
    - exists (str "_m" ++ decN (Z.to_N m) ++ rest)%list. split; [cbn; rewrite <- !app_assoc; reflexivity|]. split; [reflexivity|].
      cbn [str list_ascii_of_string app state_of]. cbn [eqc]. change (eqc "_" "_" && (eqc "m" "e" || eqc "m" "m")) with true. cbv iota.
      rewrite (digits_app (decN (Z.to_N m)) rest (decN_digits _)).
      + destruct (decN (Z.to_N m)) eqn:Q; [now destruct (decN_nonnil (Z.to_N m))|]. rewrite <- Q. cbn [skipn]. rewrite dval_decN. lia.
      + unfold harmless in HR. destruct rest as [|k rest]; [easy|]. now rewrite (proj1 HR).
    - assert (m = 0) as -> by lia. exists rest. split; [cbn; rewrite <- !app_assoc; reflexivity|]. unfold harmless in HR.
      destruct rest as [|k rest]; [easy|]. destruct HR as [HR1 HR2]. rewrite HR1. split; [easy|]. now rewrite (HR2 eq_refl). }
  destruct X as [tail [X0 [T1 T2]]]. etransitivity; [exact (f_equal zam X0)|]. unfold zam, matched. rewrite U.
  rewrite lowers_app; [|exact L|rewrite D1; cbn; now apply digit_not_lower].
  rewrite (digits_app (decN (Z.to_N a)) tail FD T1). rewrite D1 at 1. cbv iota. rewrite N. cbn [option_map].
  rewrite dval_decN. do 2 f_equal; [f_equal; lia|]. exact T2.
Qed.
Lemma round_trip z a m n : 0 <= a -> 0 <= m -> gnd_name z a m = Some n -> zam n = Some (z, a, m).
Proof. intros Ha Hm H. rewrite <- (app_nil_r n). now apply zam_name. Qed.
Lemma name_exists z a m : (exists n, gnd_name z a m = Some n) <-> 0 <= z <= 118.
Proof.
  rewrite <- symbol_known. unfold gnd_name. split; intros [n H].
  - destruct (symbol z) as [s|]; [now exists s | discriminate].
  - rewrite H. cbn. eauto.
Qed.
Lemma names_inj z a m z' a' m' n : 0 <= a -> 0 <= m -> 0 <= a' -> 0 <= m' ->
  gnd_name z a m = Some n -> gnd_name z' a' m' = Some n -> (z, a, m) = (z', a', m').
Proof. intros H1 H2 H3 H4 E E'. apply round_trip in E; [|easy|easy]. apply round_trip in E'; [|easy|easy]. congruence. Qed.

(** *** ZAIDs *)
Lemma fit_spec : forall k z a, a - 3 * z <= Z.of_nat k -> exists j, 0 <= j /\ fit k z a = a - 100 * j /\ fit k z a <= 3 * z /\ (0 < j -> 3 * z < fit k z a + 100).
Proof.
  induction k as [|k IH]; intros z a H; cbn [fit].
  - exists 0. lia.
  - destruct (3 * z <? a) eqn:E.
    + destruct (IH z (a - 100) ltac:(lia)) as [j [A [B [C D]]]]. exists (j + 1). split; [lia|]. split; [lia|]. split; [exact C|].
      intros _. destruct (Z.eq_dec j 0) as [->|N]; [lia | apply D; lia].
    + exists 0. lia.
Qed.
Lemma fit_exact z a b : (exists j, 0 <= j /\ a = b + 100 * j) -> 3 * z - 100 < b <= 3 * z -> fit (Z.to_nat (a - 3 * z)) z a = b.
Proof.
  intros [j [J E]] B. destruct (fit_spec (Z.to_nat (a - 3 * z)) z a ltac:(lia)) as [i [I [F [G H]]]].
  destruct (Z.eq_dec i 0) as [->|N]; [|specialize (H ltac:(lia))]; lia.
Qed.
Lemma fit_id z a : a <= 3 * z -> fit (Z.to_nat (a - 3 * z)) z a = a.
Proof. intros H. replace (Z.to_nat (a - 3 * z)) with 0%nat by lia. reflexivity. Qed.

Lemma code_split z a : 0 <= a < 1000 -> (1000 * z + a) / 1000 = z /\ (1000 * z + a) mod 1000 = a.
Proof. intros H. split; [symmetry; apply Z.div_unique with a; lia | symmetry; apply Z.mod_unique with z; lia]. Qed.
Lemma finish z a m : 0 <= z <= 118 -> metadata (match symbol z, gnd_name z a m with Some e, Some n => Some (n, e, z, a, m) | _, _ => None end) z a m.
Proof.
  intros H. destruct (proj2 (symbol_known z) H) as [e E]. destruct (proj2 (name_exists z a m) H) as [n N]. rewrite E, N. exists n, e. easy.
Qed.

Lemma ground s z a : 0 <= z <= 118 -> 0 <= a <= 300 -> a <= 3 * z -> (s = Mcnp -> 1000 * z + a <> 95242) ->
  metadata (get_metadata (1000 * z + a) s) z a 0.
Proof.
  intros Hz Ha Hb Hs. unfold get_metadata. destruct (code_split z a ltac:(lia)) as [-> ->].
  replace (300 <? a) with false by lia. destruct s.
  - cbv beta iota zeta. rewrite fit_id by lia. now apply finish.
  - specialize (Hs eq_refl). replace (1000000 <? 1000 * z + a) with false by lia. replace (1000 * z + a =? 95242) with false by lia.
    destruct (1000 * z + a =? 95642); cbv beta iota zeta; rewrite fit_id by lia; now apply finish.
Qed.
Lemma isomer s z a : 0 <= z <= 118 -> 0 <= a <= 300 -> 3 * z - 100 < a -> a <= 3 * z -> (s = Mcnp -> 1000 * z + a <> 95242) ->
  metadata (get_metadata (1000 * z + (a + 400)) s) z a 1.
Proof.
  intros Hz Ha Hb Hc Hs. unfold get_metadata. destruct (code_split z (a + 400) ltac:(lia)) as [-> ->].
  replace (300 <? a + 400) with true by lia.
  assert (F : fit (Z.to_nat (a + 400 - 3 * z)) z (a + 400) = a) by (apply fit_exact; [exists 4; lia | lia]).
  destruct s; cbv beta iota zeta.
  - rewrite F. now apply finish.
  - specialize (Hs eq_refl). replace (1000000 <? 1000 * z + (a + 400)) with false by lia. replace (1000 * z + (a + 400) =? 95242) with false by lia.
    replace (1000 * z + (a + 400) =? 95642) with false by lia. cbv beta iota zeta. rewrite F. now apply finish.
Qed.
Lemma sza t z a : 1 <= t -> 0 <= z <= 118 -> 0 <= a < 1000 -> a <= 3 * z -> 1000000 * t + 1000 * z + a <> 1095242 -> 1000000 * t + 1000 * z + a <> 1000000 ->
  metadata (get_metadata (1000000 * t + 1000 * z + a) Mcnp) z a t.
Proof.
  intros Ht Hz Ha Hb Hs H0. unfold get_metadata.
  replace (1000000 * t + 1000 * z + a) with (1000 * (1000 * t + z) + a) in * by lia.
  destruct (code_split (1000 * t + z) a Ha) as [-> ->]. destruct (code_split t z ltac:(lia)) as [_ ->].
  replace (1000000 <? 1000 * (1000 * t + z) + a) with true by lia. replace (1000 * (1000 * t + z) + a =? 1095242) with false by lia.
  assert (D : (1000 * (1000 * t + z) + a) / 1000000 = t) by (symmetry; apply Z.div_unique with (1000 * z + a); lia).
  rewrite D. cbv beta iota zeta. rewrite fit_id by lia. now apply finish.
Qed.
Lemma bounded zaid s n e z a m : get_metadata zaid s = Some (n, e, z, a, m) ->
  a <= 3 * z /\ (exists j, 0 <= j /\ a = zaid mod 1000 - 100 * j) /\ symbol z = Some e /\ gnd_name z a m = Some n.
Proof.
  unfold get_metadata. set (p := match s with Mcnp => _ | Nndc => _ end). destruct p as [z1 m1].
  destruct (fit_spec (Z.to_nat (zaid mod 1000 - 3 * z1)) z1 (zaid mod 1000) ltac:(lia)) as [j [A [B [C D]]]].
  destruct (symbol z1) as [e1|] eqn:E; [|discriminate].
  destruct (gnd_name z1 (fit (Z.to_nat (zaid mod 1000 - 3 * z1)) z1 (zaid mod 1000)) m1) as [n1|] eqn:N; [|discriminate].
  intros H. injection H as <- <- <- <- <-. split; [exact C|]. split; [now exists j|]. easy.
Qed.
Lemma documented_lost z a m : 0 <= z <= 118 -> 0 <= a -> 0 < m -> a + 100 * m <= 300 -> 3 * z - 100 < a <= 3 * z ->
  metadata (get_metadata (1000 * z + a + 100 * m) Nndc) z a 0.
Proof.
  intros Hz Ha Hm Hs Hb. unfold get_metadata. rewrite <- Z.add_assoc. destruct (code_split z (a + 100 * m) ltac:(lia)) as [-> ->].
  replace (300 <? a + 100 * m) with false by lia. cbv beta iota zeta.
  rewrite (fit_exact z (a + 100 * m) a); [now apply finish | exists m; lia | lia].
Qed.

Lemma zam_range t z a m : zam t = Some (z, a, m) -> 0 <= z <= 118 /\ 0 <= a /\ 0 <= m.
Proof.
  unfold zam. destruct (matched t) as [[[s d] st]|]; [|discriminate]. destruct (number s) as [y|] eqn:N; [|discriminate].
  cbn [option_map]. intros H.
  assert (y = z) by congruence. assert (Ea : a = Z.of_N (dval d)) by congruence.
  assert (Em : m = match st with [] => 0 | _ => Z.of_N (dval (skipn 2 st)) end) by congruence. subst y.
  split; [apply symbol_known; exists s; now apply number_symbol|]. split; [lia|]. destruct st; lia.
Qed.
Lemma normal t z a m : zam t = Some (z, a, m) -> exists n, gnd_name z a m = Some n /\ zam n = Some (z, a, m).
Proof.
  intros H. destruct (zam_range t z a m H) as [A [B C]]. destruct (proj2 (name_exists z a m) A) as [n N]. exists n. split; [easy|]. now apply round_trip.
Qed.

(** *** The periodic table *)
Definition blank : ascii := " "%char.
Fixpoint cut (s : text) : list text :=
  match s with
  | [] => [[]]
  | c :: r => if ascii_dec c blank then [] :: cut r else match cut r with h :: t => (c :: h) :: t | [] => [[c]] end
  end.
Lemma cut_word w b : ~ In blank w -> b = [] \/ (exists b', b = blank :: b') -> exists t, cut (w ++ b) = w :: t.
Proof.
  intros N B. induction w as [|c w IH]; cbn [app cut].
  - destruct B as [->|(b' & ->)]; cbn [cut]; [eauto|]. destruct (ascii_dec blank blank); [eauto | congruence].
  - destruct (ascii_dec c blank) as [->|_]; [exfalso; apply N; now left|]. destruct IH as (t & ->); [intros I; apply N; now right|]. eauto.
Qed.
Lemma cut_after a s : nth_error (cut (a ++ blank :: s)) (S (count_occ ascii_dec a blank)) = nth_error (cut s) 0 /\
  forall k, nth_error (cut (a ++ blank :: s)) (S (count_occ ascii_dec a blank + k)) = nth_error (cut s) k.
Proof.
  assert (H : forall k, nth_error (cut (a ++ blank :: s)) (S (count_occ ascii_dec a blank + k)) = nth_error (cut s) k).
  { induction a as [|c a IH]; intros k; cbn [app cut count_occ].
    - destruct (ascii_dec blank blank); [reflexivity | congruence].
    - destruct (ascii_dec c blank) as [->|_]; [cbn [nth_error Nat.add]; apply IH|]. specialize (IH k). destruct (cut (a ++ blank :: s)) as [|h t]; cbn in IH |- *; [now destruct (count_occ ascii_dec a blank + k)%nat|]. exact IH. }
  split; [|exact H]. specialize (H 0%nat). now rewrite Nat.add_0_r in H.
Qed.
Lemma word_cut s w k : word_at s w k -> nth_error (cut s) k = Some w.
Proof.
  intros (a & b & -> & N & NE & [->|(a' & ->)] & B & K).
  - cbn in K. subst k. cbn [app]. destruct (cut_word w b N B) as (t & ->). reflexivity.
  - rewrite <- app_assoc. cbn [app]. rewrite count_occ_app in K. cbn in K. destruct (ascii_dec " " " ") as [_|]; [|congruence]. fold blank in *. rewrite Nat.add_1_r in K. subst k.
    rewrite (proj1 (cut_after a' (w ++ b))). destruct (cut_word w b N B) as (t & ->). reflexivity.
Qed.
Lemma cut_free s : forall k w, nth_error (cut s) k = Some w -> ~ In blank w.
Proof.
  induction s as [|c s IH]; intros k w; cbn [cut].
  - destruct k as [|[|k]]; cbn; try discriminate. intros [= <-] [].
  - destruct (ascii_dec c blank) as [->|N].
    + destruct k as [|k]; cbn; [intros [= <-] [] | apply IH].
    + destruct (cut s) as [|h t] eqn:E.
      * destruct k as [|[|k]]; cbn; try discriminate. intros [= <-] [->|[]]. congruence.
      * destruct k as [|k]; cbn; [|apply (IH (S k))]. intros [= <-] [->|I]; [congruence|]. exact (IH 0%nat h eq_refl I).
Qed.
Lemma cut_at s : forall k w, nth_error (cut s) k = Some w ->
  exists a b, s = a ++ w ++ b /\ (a = [] \/ exists a', a = a' ++ [blank]) /\ (b = [] \/ exists b', b = blank :: b') /\ count_occ ascii_dec a blank = k.
Proof.
  induction s as [|c s IH]; intros k w; cbn [cut].
  - destruct k as [|[|k]]; cbn; try discriminate. intros [= <-]. exists [], []. repeat split; now left.
  - destruct (ascii_dec c blank) as [->|N].
    + destruct k as [|k]; cbn [nth_error].
      * intros [= <-]. exists [], (blank :: s). cbn. repeat split; [now left | right; eauto].
      * intros H. destruct (IH k w H) as (a & b & -> & A & B & K). exists (blank :: a), b. split; [reflexivity|]. split; [right; destruct A as [->|(a' & ->)]; [exists []; reflexivity | exists (blank :: a'); reflexivity]|]. split; [exact B|].
        cbn [count_occ]. destruct (ascii_dec blank blank); [congruence | congruence].
    + destruct (cut s) as [|h t] eqn:E.
      * exfalso. destruct s as [|d s]; cbn in E; [discriminate|]. destruct (ascii_dec d blank); [discriminate|]. destruct (cut s); discriminate.
      * destruct k as [|k]; cbn [nth_error].
        -- intros [= <-]. destruct (IH 0%nat h eq_refl) as (a & b & ES & A & B & K). destruct A as [->|(a' & ->)]; [|rewrite count_occ_app in K; cbn in K; destruct (ascii_dec blank blank); [lia | congruence]].
           exists [], b. cbn in ES |- *. subst s. repeat split; [now left | exact B].
        -- intros H. destruct (IH (S k) w H) as (a & b & -> & A & B & K). exists (c :: a), b. split; [reflexivity|]. split; [right; destruct A as [->|(a' & ->)]; [discriminate | exists (c :: a'); reflexivity]|]. split; [exact B|].
           cbn [count_occ]. destruct (ascii_dec c blank); [congruence | exact K].
Qed.
Lemma cut_word_at s k w : nth_error (cut s) k = Some w -> w <> [] -> word_at s w k.
Proof. intros H NE. destruct (cut_at s k w H) as (a & b & E & A & B & K). exists a, b. split; [exact E|]. split; [exact (cut_free s k w H)|]. auto. Qed.
Definition row_words : list (list text) := map (fun r => cut (str (snd r))) rows.
Lemma rows_fill : symbols = str "n" :: concat row_words.
Proof. vm_compute. reflexivity. Qed.
Lemma rows_start : forall i z r, nth_error rows i = Some (z, r) -> z = Z.of_nat (S (List.length (concat (firstn i row_words)))).
Proof. intros i z r H. do 11 (destruct i as [|i]; [cbn in H; injection H as <- _; vm_compute; reflexivity|]). destruct i; discriminate. Qed.
Lemma concat_nth {A} (l : list (list A)) : forall i x k w, nth_error l i = Some x -> nth_error x k = Some w -> nth_error (concat l) (List.length (concat (firstn i l)) + k) = Some w.
Proof.
  induction l as [|y l IH]; intros i x k w H K; [destruct i; discriminate|]. destruct i as [|i]; cbn [nth_error] in H.
  - injection H as ->. cbn. rewrite nth_error_app1; [exact K | apply nth_error_Some; congruence].
  - cbn [firstn concat]. rewrite app_length, <- Nat.add_assoc, nth_error_app2 by lia. replace (_ - _)%nat with (List.length (concat (firstn i l)) + k)%nat by lia. now apply (IH i x).
Qed.
Lemma concat_nth_inv {A} (l : list (list A)) : forall n w, nth_error (concat l) n = Some w -> exists i x k, nth_error l i = Some x /\ nth_error x k = Some w /\ n = (List.length (concat (firstn i l)) + k)%nat.
Proof.
  induction l as [|y l IH]; intros n w H; [destruct n; discriminate|]. cbn [concat] in H. destruct (Nat.lt_ge_cases n (List.length y)) as [L|L].
  - rewrite nth_error_app1 in H by exact L. exists 0%nat, y, n. auto.
  - rewrite nth_error_app2 in H by exact L. destruct (IH _ _ H) as (i & x & k & H1 & H2 & H3). exists (S i), x, k. split; [exact H1|]. split; [exact H2|]. cbn [firstn concat]. rewrite app_length. lia.
Qed.
Lemma symbol_element z w : symbol z = Some w <-> (z = 0 /\ w = str "n") \/ element z w.
Proof.
  unfold symbol. rewrite rows_fill. split.
  - destruct (Z.ltb_spec z 0) as [|G]; [discriminate|]. intros H. destruct (Z.to_nat z) as [|n] eqn:E; cbn [nth_error] in H; [left; split; [lia | congruence]|]. right.
    destruct (concat_nth_inv _ _ _ H) as (i & x & k & H1 & H2 & H3). unfold row_words in H1. rewrite nth_error_map in H1. destruct (nth_error rows i) as [[z0 r]|] eqn:R; [|discriminate]. cbn in H1. injection H1 as <-.
    exists z0, r, k. split; [exact (nth_error_In _ _ R)|]. split.
    + apply cut_word_at; [exact H2|]. intros ->. assert (I : In [] symbols) by (rewrite rows_fill; right; exact (nth_error_In _ _ H)). pose proof (proj1 (forallb_forall _ _) symbols_shaped _ I) as K. discriminate.
    + rewrite (rows_start i z0 r R). lia.
  - intros [[-> ->]|(z0 & r & k & I & W & ->)]; [reflexivity|]. apply word_cut in W. apply In_nth_error in I. destruct I as (i & R).
    rewrite (rows_start i z0 r R). destruct (Z.ltb_spec (Z.of_nat (S (List.length (concat (firstn i row_words)))) + Z.of_nat k) 0) as [|_]; [lia|].
    replace (Z.to_nat _) with (S (List.length (concat (firstn i row_words)) + k)) by lia. cbn [nth_error]. apply (concat_nth row_words i (cut (str r))); [|exact W]. unfold row_words. rewrite nth_error_map, R. reflexivity.
Qed.
