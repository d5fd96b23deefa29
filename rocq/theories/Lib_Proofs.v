From Coq Require Import ZArith NArith List Bool Arith Ascii Lia.
From Verif Require Import Text Dec PyNum Lib_Model Lib_Spec.
Import ListNotations.
Local Open Scope nat_scope.

(** ** Bytes of integers *)
Lemma byte_ok n : (0 <= n < 256)%Z -> Z.of_N (N_of_ascii (ascii_of_N (Z.to_N n))) = n.
Proof. intros H. rewrite N_ascii_embedding by lia. lia. Qed.
Lemma dec_enc_i z b : enc_i z = Some b -> dec_i b = z /\ length b = 4.
Proof.
  unfold enc_i. destruct ((- 2 ^ 31 <=? z) && (z <? 2 ^ 31))%Z eqn:E; [|discriminate]. intros H. injection H as <-. split; [|reflexivity].
  apply andb_true_iff in E. destruct E as [E1 E2]. apply Z.leb_le in E1. apply Z.ltb_lt in E2. unfold dec_i. cbn [map fold_right].
  rewrite !byte_ok by (apply Z.mod_pos_bound; lia).
  change (256 ^ 0)%Z with 1%Z. change (Z.pow_pos 256 1)%Z with 256%Z. change (Z.pow_pos 256 2)%Z with 65536%Z. change (Z.pow_pos 256 3)%Z with 16777216%Z. change (2 ^ 31)%Z with 2147483648%Z in *. change (2 ^ 32)%Z with 4294967296%Z.
  assert (U : (z / 1 mod 256 + 256 * (z / 256 mod 256 + 256 * (z / 65536 mod 256 + 256 * (z / 16777216 mod 256 + 256 * 0))) = z mod 4294967296)%Z).
  { Z.to_euclidean_division_equations. lia. }
  rewrite U. destruct (Z.ltb_spec (z mod 4294967296) 2147483648); Z.to_euclidean_division_equations; lia.
Qed.
Lemma enc_i_fits z : fits z -> exists b, enc_i z = Some b.
Proof. intros [A B]. unfold enc_i. apply Z.leb_le in A. apply Z.ltb_lt in B. rewrite A, B. cbn [andb]. eauto. Qed.
(** ** Segments *)
Lemma cols_here {A} n (x y : list A) : length x = n -> cols 0 n (x ++ y) = x.
Proof. intros <-. unfold cols. cbn [skipn]. rewrite Nat.sub_0_r, firstn_app, Nat.sub_diag, firstn_all, firstn_O. apply app_nil_r. Qed.
Lemma cols_past {A} n a b (x y : list A) : length x = n -> n <= a -> cols a b (x ++ y) = cols (a - n) (b - n) y.
Proof. intros <- H. unfold cols. rewrite skipn_app, skipn_all2 by lia. cbn [app]. f_equal. lia. Qed.
Lemma chunks_concat n : forall bs, Forall (fun b => length b = n) bs -> chunks n (length bs) (concat bs) = bs.
Proof.
  induction 1 as [|b bs H HB IH]; [reflexivity|]. cbn [length chunks concat]. rewrite firstn_app, skipn_app, <- H, Nat.sub_diag, firstn_all, firstn_O, app_nil_r, skipn_all. cbn [app]. rewrite skipn_O. rewrite H. now rewrite IH.
Qed.
Lemma concat_length n : forall bs : list bytes, Forall (fun b => length b = n) bs -> length (concat bs) = n * length bs.
Proof. induction 1 as [|b bs H HB IH]; [cbn; lia|]. cbn. rewrite app_length, IH, H. lia. Qed.

Lemma all_some_ok {A B} (f : A -> option B) l r : Forall2 (fun x y => f x = Some y) l r -> all_some f l = Some r.
Proof. induction 1 as [|x y l r H HR IH]; [reflexivity|]. cbn. now rewrite H, IH. Qed.
Lemma all_some_inv {A B} (f : A -> option B) : forall l r, all_some f l = Some r -> Forall2 (fun x y => f x = Some y) l r.
Proof.
  induction l as [|x l IH]; intros r H; cbn in H; [injection H as <-; constructor|]. destruct (f x) eqn:E; [|discriminate]. destruct (all_some f l); [|discriminate]. injection H as <-. constructor; auto.
Qed.
Lemma words_join_lines : forall ls, words (join ls) = all_words ls.
Proof.
  induction ls as [|l ls IH]; [reflexivity|]. destruct ls as [|m ls]; [cbn; now rewrite app_nil_r|].
  change (join (l :: m :: ls)) with (l ++ sp :: join (m :: ls)). rewrite words_app_r by reflexivity. change (words (sp :: join (m :: ls))) with (words (join (m :: ls))). rewrite IH. reflexivity.
Qed.
Lemma evens_pairs : forall pw : list (text * text), evens (flat_map (fun p => [fst p; snd p]) pw) = map fst pw /\ odds (flat_map (fun p => [fst p; snd p]) pw) = map snd pw.
Proof.
  induction pw as [|[a b] pw [IH1 IH2]]; [split; reflexivity|]. split.
  - cbn [flat_map fst snd app evens map]. now rewrite IH1.
  - cbn [flat_map fst snd app odds map]. destruct pw as [|[c d] pw]; [reflexivity|]. cbn [flat_map fst snd app] in *. cbn [evens]. f_equal. cbn [odds] in IH2. exact IH2.
Qed.
Section Float.
Context {D : Type} (F : floats D) (PF : proper F).

Lemma enc_pairs_ok : forall l, Forall (fun p => fits (fst p)) l -> exists bs, enc_pairs F l = Some (concat bs) /\ length bs = length l /\ Forall (fun b => length b = 12) bs /\
  map (fun c => (dec_i (cols 0 4 c), dec F (cols 4 12 c))) bs = l.
Proof.
  induction 1 as [|[i d] l H HL (bs & E & L & Z0 & M)]; [exists []; repeat split; constructor|]. cbn in H. destruct (enc_i_fits i H) as [b B]. destruct (dec_enc_i _ _ B) as [B1 B2].
  exists ((b ++ enc F d) :: bs). cbn [enc_pairs]. rewrite B, E. split; [cbn [concat]; now rewrite <- app_assoc|]. split; [cbn; now rewrite L|]. split; [constructor; [rewrite app_length, (p_eight _ PF), B2; reflexivity | exact Z0]|].
  cbn [map]. rewrite M. f_equal. rewrite (cols_here 4 b) by exact B2. rewrite (cols_past 4 4 12 b) by (auto; lia). cbn [Nat.sub]. rewrite <- (app_nil_r (enc F d)), cols_here by apply (p_eight _ PF). now rewrite B1, (p_bytes _ PF).
Qed.
Lemma enc_ints_ok : forall l, Forall fits l -> exists bs, enc_ints l = Some (concat bs) /\ length bs = length l /\ Forall (fun b => length b = 4) bs /\ map dec_i bs = l.
Proof.
  unfold enc_ints. induction 1 as [|z l H HL (bs & E & L & Z0 & M)]; [exists []; repeat split; constructor|]. destruct (enc_i_fits z H) as [b B]. destruct (dec_enc_i _ _ B) as [B1 B2].
  destruct (all_some enc_i l) as [cs|] eqn:A; [|discriminate]. injection E as E. exists (b :: cs). cbn [all_some]. rewrite B, A. split; [reflexivity|].
  apply all_some_inv in A. assert (LC : length cs = length l) by (clear -A; induction A; cbn; congruence).
  split; [exact (f_equal S LC)|]. split; [constructor; [exact B2|] | cbn; rewrite B1; f_equal].
  - clear -A. induction A as [|x y l r H _ IH]; constructor; [now apply dec_enc_i in H | exact IH].
  - clear -A. induction A as [|x y l r H _ IH]; [reflexivity|]. cbn. apply dec_enc_i in H. destruct H as [-> _]. now rewrite IH.
Qed.
Lemma extra_ok n : let extra := record_length - Z.to_nat ((Z.of_nat (n * 8) - 1) mod Z.of_nat record_length + 1) in
  n * 8 + extra = record_length * ((n + 512 - 1) / 512).
Proof.
  cbn zeta. change (Z.of_nat record_length) with 4096%Z. unfold record_length.
  assert (Q : (Z.of_nat ((n + 512 - 1) / 512) = (Z.of_nat n + 511) / 512)%Z) by (rewrite Nat2Z.inj_div; f_equal; lia).
  assert (R : (0 <= (Z.of_nat (n * 8) - 1) mod 4096 < 4096)%Z) by (apply Z.mod_pos_bound; lia).
  assert (G : (Z.of_nat (n * 8) + (4096 - ((Z.of_nat (n * 8) - 1) mod 4096 + 1)) = 4096 * ((Z.of_nat n + 511) / 512))%Z).
  { rewrite Nat2Z.inj_mul. change (Z.of_nat 8) with 8%Z. Z.to_euclidean_division_equations. lia. }
  rewrite <- Q in G. lia.
Qed.
(** What a packed table looks like. *)
Definition packed (b : bytes) (t : table D) : Prop :=
  exists s0 s1 s2 s3 ps ns js pad0 xs pad1 nxs jxs xss,
    b = s0 ++ s1 ++ s2 ++ s3 ++ concat ps ++ concat ns ++ concat js ++ pad0 ++ concat xs ++ pad1 /\
    length s0 = 10 /\ length s1 = 8 /\ length s2 = 8 /\ length s3 = 90 /\ length ps = 16 /\ length ns = 16 /\ length js = 32 /\ length pad0 = 3596 /\
    Forall (fun b => length b = 12) ps /\ Forall (fun b => length b = 4) ns /\ Forall (fun b => length b = 4) js /\ Forall (fun b => length b = 8) xs /\
    trim s0 = t_name t /\ dec F s1 = t_awr t /\ dec F s2 = t_temp t /\
    map (fun c => (dec_i (cols 0 4 c), dec F (cols 4 12 c))) ps = t_pairs t /\ map dec_i ns = nxs /\ map dec_i js = jxs /\ map (dec F) xs = xss /\
    t_nxs t = 0%Z :: nxs /\ t_jxs t = 0%Z :: jxs /\ t_xss t = zero F :: xss /\ nth 0 nxs 0%Z = Z.of_nat (length xs) /\
    length xs * 8 + length pad1 = record_length * ((length xs + 512 - 1) / 512).

Lemma read_packed b t k wanted rest : packed b t ->
  read_binary F (S k) wanted (b ++ rest) =
  if match wanted with Some ws => negb (existsb (eqt (t_name t)) ws) | None => false end then read_binary F k wanted rest
  else match read_binary F k wanted rest with Some r => Some (t :: r) | None => None end.
Proof.
  intros (s0 & s1 & s2 & s3 & ps & ns & js & pad0 & xs & pad1 & nxs & jxs & xss & E & L0 & L1 & L2 & L3 & LP & LN & LJ & LZ & FP & FN & FJ & FX & N0 & A0 & T0 & P0 & NX & JX & XS & TN & TJ & TX & HN & HP).
  assert (CP : length (concat ps) = 192) by exact (eq_trans (concat_length 12 ps FP) (f_equal (Nat.mul 12) LP)).
  assert (CN : length (concat ns) = 64) by exact (eq_trans (concat_length 4 ns FN) (f_equal (Nat.mul 4) LN)).
  assert (CJ : length (concat js) = 128) by exact (eq_trans (concat_length 4 js FJ) (f_equal (Nat.mul 4) LJ)).
  assert (CX : length (concat xs) = 8 * length xs) by exact (concat_length 8 xs FX).
  set (B := b ++ rest).
  assert (EB : B = s0 ++ s1 ++ s2 ++ s3 ++ concat ps ++ concat ns ++ concat js ++ pad0 ++ concat xs ++ pad1 ++ rest) by (unfold B; rewrite E; now rewrite <- !app_assoc).
  assert (LB : 500 <= length B) by (rewrite EB, !app_length; lia).
  assert (c1 : cols 0 10 B = s0) by (rewrite EB; now apply cols_here).
  assert (c2 : cols 10 18 B = s1) by (rewrite EB, (cols_past 10) by (auto; lia); now apply cols_here).
  assert (c3 : cols 18 26 B = s2) by (rewrite EB, (cols_past 10) by (auto; lia); rewrite (cols_past 8) by (auto; lia); now apply cols_here).
  assert (c4 : cols 116 308 B = concat ps) by (rewrite EB, (cols_past 10) by (auto; lia); rewrite (cols_past 8) by (auto; lia); rewrite (cols_past 8) by (auto; lia); rewrite (cols_past 90) by (auto; lia); now apply cols_here).
  assert (c5 : cols 308 372 B = concat ns) by (rewrite EB, (cols_past 10) by (auto; lia); rewrite (cols_past 8) by (auto; lia); rewrite (cols_past 8) by (auto; lia); rewrite (cols_past 90) by (auto; lia); rewrite (cols_past 192) by (auto; lia); now apply cols_here).
  assert (c6 : cols 372 500 B = concat js) by (rewrite EB, (cols_past 10) by (auto; lia); rewrite (cols_past 8) by (auto; lia); rewrite (cols_past 8) by (auto; lia); rewrite (cols_past 90) by (auto; lia); rewrite (cols_past 192) by (auto; lia); rewrite (cols_past 64) by (auto; lia); now apply cols_here).
  set (hd0 := s0 ++ s1 ++ s2 ++ s3 ++ concat ps ++ concat ns ++ concat js ++ pad0).
  assert (EH : B = hd0 ++ concat xs ++ pad1 ++ rest) by (rewrite EB; unfold hd0; now rewrite <- !app_assoc).
  assert (LH : length hd0 = record_length) by (unfold hd0; rewrite !app_length; unfold record_length; lia).
  assert (c7 : cols record_length (record_length + length xs * 8) B = concat xs).
  { rewrite EH. rewrite (cols_past record_length) by (auto; lia). rewrite Nat.sub_diag. replace (record_length + length xs * 8 - record_length) with (length xs * 8) by lia. apply cols_here. lia. }
  assert (c8 : skipn (record_length * ((length xs + 512 - 1) / 512 + 1)) B = rest).
  { assert (LL : length (hd0 ++ concat xs ++ pad1) = record_length * ((length xs + 512 - 1) / 512 + 1)).
    { rewrite !app_length, LH, CX. rewrite Nat.mul_add_distr_l, <- HP. lia. }
    rewrite <- LL. replace B with ((hd0 ++ concat xs ++ pad1) ++ rest) by (rewrite EH; now rewrite <- !app_assoc). rewrite skipn_app, skipn_all, Nat.sub_diag. reflexivity. }
  assert (k1 : chunks 12 16 (concat ps) = ps) by (rewrite <- LP; now apply chunks_concat).
  assert (k2 : chunks 4 16 (concat ns) = ns) by (rewrite <- LN; now apply chunks_concat).
  assert (k3 : chunks 4 32 (concat js) = js) by (rewrite <- LJ; now apply chunks_concat).
  assert (k4 : chunks 8 (length xs) (concat xs) = xs) by now apply chunks_concat.
  destruct B as [|b0 B0] eqn:EBB; [cbn in LB; lia|]. rewrite <- EBB in *. clear EBB.
  change (read_binary F (S k) wanted (b ++ rest)) with (read_binary F (S k) wanted B).
  assert (U : read_binary F (S k) wanted B = 
     if length B <? 116 + 192 + 64 then None else
          let name := trim (cols 0 10 B) in
          let pairs := map (fun c => (dec_i (cols 0 4 c), dec F (cols 4 12 c))) (chunks 12 16 (cols 116 308 B)) in
          let nxs := map dec_i (chunks 4 16 (cols 308 372 B)) in
          let len := nth 0 nxs 0%Z in
          if (len <? 0)%Z then None else
          let n_records := (Z.to_nat len + 512 - 1) / 512 in
          let next := skipn (record_length * (n_records + 1)) B in
          let skipped := match wanted with Some ws => negb (existsb (eqt name) ws) | None => false end in
          if skipped then read_binary F k wanted next else
          if length B <? 500 then None else
          let jxs := map dec_i (chunks 4 32 (cols 372 500 B)) in
          let data := cols record_length (record_length + Z.to_nat len * 8) B in
          if length data <? Z.to_nat len * 8 then None else
          let xss := map (dec F) (chunks 8 (Z.to_nat len) data) in
          match read_binary F k wanted next with
          | Some r => Some (mkTable name (dec F (cols 10 18 B)) (dec F (cols 18 26 B)) pairs (0%Z :: nxs) (0%Z :: jxs) (zero F :: xss) :: r)
          | None => None
          end).
  { destruct B as [|b1 B1]; [cbn in LB; lia | reflexivity]. }
  rewrite U. clear U. destruct (Nat.ltb_spec (length B) (116 + 192 + 64)) as [H|_]; [lia|].
  rewrite c1, c2, c3, c4, c5, c6, k1, k2, k3, N0, P0, NX, JX. cbn zeta. rewrite HN. destruct (Z.ltb_spec (Z.of_nat (length xs)) 0) as [H|_]; [lia|]. rewrite Nat2Z.id, c7, c8, k4.
  destruct (match wanted with Some ws => negb (existsb (eqt (t_name t)) ws) | None => false end); [reflexivity|].
  destruct (Nat.ltb_spec (length B) 500) as [H|_]; [lia|]. destruct (Nat.ltb_spec (length (concat xs)) (length xs * 8)) as [H|_]; [lia|].
  destruct (read_binary F k wanted rest) as [r|]; [|reflexivity]. rewrite XS, A0, T0, <- TN, <- TJ, <- TX. destruct t. reflexivity.
Qed.
(** ** Converting *)
Lemma all_words_len4 {A} (f : list text) (g : text -> option A) l : Forall2 (fun w z => g w = Some z) f l -> length f = length l.
Proof. induction 1; cbn; congruence. Qed.
Lemma Forall2_and_l {A B} (P Q : A -> B -> Prop) : forall l r, Forall2 (fun x y => P x y /\ Q x y) l r -> Forall2 P l r /\ Forall2 Q l r.
Proof. induction 1 as [|x y l r [H1 H2] _ [I1 I2]]; split; constructor; auto. Qed.
Lemma Forall2_right {A B} (Q : B -> Prop) : forall (l : list A) r, Forall2 (fun _ y => Q y) l r -> Forall Q r.
Proof. induction 1; constructor; auto. Qed.
Lemma Forall2_len {A B} (P : A -> B -> Prop) l r : Forall2 P l r -> length l = length r.
Proof. induction 1; cbn; congruence. Qed.
Lemma lines_parts (h0 h1 : text) ps ns js ds : length ps = 4 -> length ns = 2 -> length js = 4 ->
  let ls := h0 :: h1 :: ps ++ ns ++ js ++ ds in
  forall r, cols 2 6 (ls ++ r) = ps /\ cols 6 8 (ls ++ r) = ns /\ cols 8 12 (ls ++ r) = js /\ cols 12 (12 + length ds) (ls ++ r) = ds /\ skipn (12 + length ds) (ls ++ r) = r /\ length ls = 12 + length ds.
Proof.
  intros L1 L2 L3 ls r. set (h := [h0; h1]). assert (E : ls ++ r = h ++ ps ++ ns ++ js ++ ds ++ r) by (unfold ls, h; cbn; now rewrite <- !app_assoc). rewrite E.
  assert (LH : length h = 2) by reflexivity.
  split; [rewrite (cols_past 2) by (auto; lia); now apply cols_here|].
  split; [rewrite (cols_past 2) by (auto; lia); rewrite (cols_past 4) by (auto; lia); now apply cols_here|].
  split; [rewrite (cols_past 2) by (auto; lia); rewrite (cols_past 4) by (auto; lia); rewrite (cols_past 2) by (auto; lia); now apply cols_here|].
  split; [rewrite (cols_past 2) by (auto; lia); rewrite (cols_past 4) by (auto; lia); rewrite (cols_past 2) by (auto; lia); rewrite (cols_past 4) by (auto; lia); cbn [Nat.sub Nat.add]; apply cols_here; lia|].
  split.
  - replace (12 + length ds) with (length (h ++ ps ++ ns ++ js ++ ds)) by (rewrite !app_length; lia). replace (h ++ ps ++ ns ++ js ++ ds ++ r) with ((h ++ ps ++ ns ++ js ++ ds) ++ r) by (now rewrite <- !app_assoc). now rewrite skipn_app, skipn_all, Nat.sub_diag.
  - unfold ls. cbn [length]. rewrite !app_length. lia.
Qed.
Lemma enc_s_length n t : length (enc_s n t) = n.
Proof. unfold enc_s. rewrite app_length, firstn_length, repeat_length. lia. Qed.
Lemma convert_table ls t r : table_text F ls t -> exists b, convert_one F (ls ++ r) = Some (b, length ls) /\ packed b t.
Proof.
  intros [(h0 & h1 & ps & ns & js & ds & E & L1 & L2 & L3 & LH & NM & AW & TZ & _ & (pw & PW & LPW & FPW) & (nxs & TN & LN & FN & xss & TX & NN & FX & LD) & (jxs & TJ & LJ & FJ))].
  destruct (lines_parts h0 h1 ps ns js ds L1 L2 L3 r) as (c1 & c2 & c3 & c4 & c5 & c6). rewrite <- E in c1, c2, c3, c4, c5, c6.
  unfold convert_one. assert (H0 : nth_error (ls ++ r) 0 = Some h0) by (rewrite E; reflexivity). assert (H1 : nth_error (ls ++ r) 1 = Some h1) by (rewrite E; reflexivity). rewrite H0, H1.
  assert (A1 : flt F (cols 10 22 h0) = Some (t_awr t)) by exact AW. assert (A2 : flt F (cols 22 34 h0) = Some (t_temp t)) by exact TZ. rewrite A1, A2, c1, c2, c3.
  unfold tokens. rewrite !words_join_lines, PW. destruct (evens_pairs pw) as [EV OD]. rewrite EV, OD.
  apply Forall2_and_l in FPW. destruct FPW as [FI FPW]. apply Forall2_and_l in FPW. destruct FPW as [FF FFit].
  assert (IZ : all_some py_int (map fst pw) = Some (map fst (t_pairs t))) by (apply all_some_ok; clear -FI; induction FI; constructor; auto).
  assert (AWS : all_some (flt F) (map snd pw) = Some (map snd (t_pairs t))) by (apply all_some_ok; clear -FF; induction FF; constructor; auto).
  rewrite IZ, AWS. apply Forall2_and_l in FN. destruct FN as [FN NFit]. apply Forall2_and_l in FJ. destruct FJ as [FJ JFit].
  rewrite (all_some_ok _ _ _ FN), (all_some_ok _ _ _ FJ). cbn zeta.
  assert (CB : combine (map fst (t_pairs t)) (map snd (t_pairs t)) = t_pairs t) by (clear; induction (t_pairs t) as [|[a b] l IH]; cbn; congruence). rewrite CB.
  destruct (enc_pairs_ok (t_pairs t)) as (pb & EP & LPB & FPB & MPB); [apply (Forall2_right _ pw); exact FFit|].
  destruct (enc_ints_ok nxs) as (nb & EN & LNB & FNB & MNB); [apply (Forall2_right _ _ _ NFit)|]. destruct (enc_ints_ok jxs) as (jb & EJ & LJB & FJB & MJB); [apply (Forall2_right _ _ _ JFit)|].
  assert (ENJ : enc_ints (nxs ++ jxs) = Some (concat nb ++ concat jb)).
  { unfold enc_ints in *. destruct (all_some enc_i nxs) as [x|] eqn:X; [|discriminate]. destruct (all_some enc_i jxs) as [y|] eqn:Y; [|discriminate]. injection EN as EN. injection EJ as EJ.
    apply all_some_inv in X, Y. rewrite (all_some_ok enc_i _ (x ++ y)) by (now apply Forall2_app). rewrite concat_app, EN, EJ. reflexivity. }
  rewrite EP, ENJ. destruct nxs as [|n0 nxs']; [discriminate|]. cbn [nth] in NN.
  assert (LTP : length (t_pairs t) = 16) by (rewrite <- (Forall2_len _ _ _ FI); exact LPW). rewrite LTP.
  assert (L48 : length ((n0 :: nxs') ++ jxs) = 48) by (rewrite app_length, LN, LJ; reflexivity). rewrite L48. rewrite NN.
  assert (Z0 : (0 <=? Z.of_nat (length xss))%Z = true) by (apply Z.leb_le; lia). rewrite Z0. cbn [Nat.eqb andb].
  assert (NL : Z.to_nat ((Z.of_nat (length xss) + 3) / 4) = length ds).
  { rewrite LD. change 4%Z with (Z.of_nat 4). change 3%Z with (Z.of_nat 3). rewrite <- Nat2Z.inj_add, <- Nat2Z.inj_div. apply Nat2Z.id. }
  rewrite NL, c4, words_join_lines, (all_some_ok _ _ _ FX), Nat2Z.id, Nat.eqb_refl.
  eexists. split; [rewrite c6; reflexivity|].
  exists (cols 0 10 h0), (enc F (t_awr t)), (enc F (t_temp t)), (enc_s 10 (cols 35 45 h0) ++ enc_s 70 (cols 0 70 h1) ++ enc_s 10 (cols 70 80 h1)), pb, nb, jb, (nulls (record_length - 500)), (map (enc F) xss),
    (nulls (record_length - Z.to_nat ((Z.of_nat (length xss * 8) - 1) mod Z.of_nat record_length + 1))), (n0 :: nxs'), jxs, xss.
  assert (S0 : enc_s 10 (cols 0 10 h0) = cols 0 10 h0).
  { unfold enc_s, cols. cbn [skipn]. rewrite firstn_firstn. assert (LL : length (firstn (10 - 0) h0) = 10) by (rewrite firstn_length; lia). rewrite LL. cbn [Nat.sub Nat.min repeat]. apply app_nil_r. }
  split; [rewrite S0; now rewrite <- !app_assoc|].
  split; [unfold cols; cbn [skipn]; rewrite firstn_length; lia|]. split; [apply (p_eight _ PF)|]. split; [apply (p_eight _ PF)|]. split; [rewrite !app_length, !enc_s_length; reflexivity|].
  split; [lia|]. split; [lia|]. split; [lia|]. split; [unfold nulls; rewrite repeat_length; unfold record_length; lia|].
  split; [exact FPB|]. split; [exact FNB|]. split; [exact FJB|]. split; [clear -PF; induction xss; constructor; [apply (p_eight _ PF) | assumption]|].
  split; [exact NM|]. split; [apply (p_bytes _ PF)|]. split; [apply (p_bytes _ PF)|]. split; [exact MPB|]. split; [exact MNB|]. split; [exact MJB|].
  split; [rewrite map_map; clear -PF; induction xss as [|x l IH]; [reflexivity|]; cbn; now rewrite (p_bytes _ PF), IH|].
  split; [exact TN|]. split; [exact TJ|]. split; [exact TX|]. rewrite map_length. split; [exact NN|].
  unfold nulls. rewrite repeat_length. apply extra_ok.
Qed.
Lemma table_lines ls t : table_text F ls t -> 12 <= length ls /\ exists h0 r, ls = h0 :: r /\ new_style h0 = Some false.
Proof.
  intros [(h0 & h1 & ps & ns & js & ds & E & L1 & L2 & L3 & _ & _ & _ & _ & (c & d & r & wa & wt & more & EN & ND & W & _) & _)]. split; [rewrite E; cbn [length]; rewrite !app_length; lia|].
  exists h0, (h1 :: ps ++ ns ++ js ++ ds). split; [exact E|]. unfold new_style. rewrite W, EN. f_equal. now apply eqc_neq.
Qed.
Lemma convert_library : forall ls ts, library_text F ls ts -> forall fuel, length ls < fuel -> exists bs, convert F fuel ls = Some (concat bs) /\ Forall2 packed bs ts.
Proof.
  induction 1 as [|ls t r ts T L IH|pre ls t r ts N T L IH]; intros fuel H.
  - destruct fuel; [lia|]. exists []. split; [reflexivity | constructor].
  - destruct fuel as [|k]; [lia|]. destruct (convert_table ls t r T) as (b & C & P). destruct (table_lines _ _ T) as (LL & h0 & q & E & NS).
    rewrite app_length in H. destruct (IH k ltac:(lia)) as (bs & CB & FB). exists (b :: bs). split; [|now constructor]. assert (S2 : skipn (length ls) (ls ++ r) = r) by (now rewrite skipn_app, skipn_all, Nat.sub_diag).
    assert (HE : ls ++ r = h0 :: (q ++ r)) by (rewrite E; reflexivity). cbn [convert]. rewrite HE. rewrite NS. rewrite <- HE, C, S2, CB. reflexivity.
  - destruct fuel as [|k]; [lia|]. destruct (convert_table ls t r T) as (b & C & P). destruct (table_lines _ _ T) as (LL & _).
    rewrite !app_length in H. destruct (IH k ltac:(lia)) as (bs & CB & FB). exists (b :: bs). split; [|now constructor]. assert (S2 : skipn (length ls) (ls ++ r) = r) by (now rewrite skipn_app, skipn_all, Nat.sub_diag).
    destruct N as (l0 & l1 & l2 & w & c & rr & more & a & b' & d & rest & -> & W0 & -> & W1). cbn [app convert]. unfold new_style. rewrite W0. assert (EC : eqc "."%char "."%char = true) by reflexivity. rewrite EC.
    cbn [nth_error]. rewrite W1. cbn [nth_error]. rewrite eqt_refl. change (skipn 3 (l0 :: l1 :: l2 :: ls ++ r)) with (ls ++ r). rewrite C, S2, CB. reflexivity.
Qed.
Lemma read_all : forall bs ts, Forall2 packed bs ts -> forall fuel wanted, length bs < fuel ->
  read_binary F fuel wanted (concat bs) = Some (filter (fun t => match wanted with Some ws => existsb (eqt (t_name t)) ws | None => true end) ts).
Proof.
  induction 1 as [|b t bs ts P H IH]; intros fuel wanted L.
  - destruct fuel; [lia | reflexivity].
  - destruct fuel as [|k]; [lia|]. cbn [concat]. rewrite (read_packed b t k wanted (concat bs) P). cbn [length] in L. rewrite IH by lia. cbn [filter]. destruct wanted as [ws|]; [|reflexivity]. destruct (existsb (eqt (t_name t)) ws); reflexivity.
Qed.
Lemma packed_length b t : packed b t -> exists k, length b = record_length * S k.
Proof.
  intros (s0 & s1 & s2 & s3 & ps & ns & js & pad0 & xs & pad1 & nxs & jxs & xss & E & L0 & L1 & L2 & L3 & LP & LN & LJ & LZ & FP & FN & FJ & FX & _ & _ & _ & _ & _ & _ & _ & _ & _ & _ & _ & HP).
  assert (CP : length (concat ps) = 192) by exact (eq_trans (concat_length 12 ps FP) (f_equal (Nat.mul 12) LP)).
  assert (CN : length (concat ns) = 64) by exact (eq_trans (concat_length 4 ns FN) (f_equal (Nat.mul 4) LN)).
  assert (CJ : length (concat js) = 128) by exact (eq_trans (concat_length 4 js FJ) (f_equal (Nat.mul 4) LJ)).
  assert (CX : length (concat xs) = 8 * length xs) by exact (concat_length 8 xs FX).
  exists ((length xs + 512 - 1) / 512). rewrite E, !app_length, CP, CN, CJ, CX, L0, L1, L2, L3, LZ, Nat.mul_succ_r, <- HP. unfold record_length. lia.
Qed.
Lemma packed_all_length : forall bs ts, Forall2 packed bs ts -> length bs <= length (concat bs) /\ exists k, length (concat bs) = record_length * k.
Proof.
  induction 1 as [|b t bs ts P H [IH1 [k IH2]]]; [split; [cbn; lia | exists 0; cbn; lia]|]. destruct (packed_length b t P) as [j J]. cbn [concat]. rewrite app_length. split.
  - cbn [length]. rewrite J. assert (1 <= record_length) by (unfold record_length; lia). nia.
  - exists (S j + k). rewrite J, IH2. ring.
Qed.
Lemma binary_round ls ts : library_text F ls ts -> exists b, ascii_to_binary F ls = Some b /\ (exists k, length b = record_length * k) /\
  forall wanted, read_bin F wanted b = Some (filter (fun t => match wanted with Some ws => existsb (eqt (t_name t)) ws | None => true end) ts).
Proof.
  intros L. destruct (convert_library ls ts L (S (length ls)) ltac:(lia)) as (bs & C & P). destruct (packed_all_length _ _ P) as [L1 L2]. exists (concat bs). split; [exact C|]. split; [exact L2|].
  intros w. apply (read_all bs ts P). lia.
Qed.

Lemma convert_fuel : forall f ls b, convert F f ls = Some b -> forall g, f <= g -> convert F g ls = Some b.
Proof.
  induction f as [|f IH]; intros ls b H g L; [discriminate|]. destruct g as [|g]; [lia|]. cbn [convert] in *. destruct ls as [|l0 ls]; [exact H|].
  destruct (new_style l0) as [new|]; [|discriminate]. set (ls' := if new then _ else _) in *. destruct ls' as [ls'|]; [|discriminate]. destruct (convert_one F ls') as [[b1 u]|]; [|discriminate].
  destruct (convert F f (skipn u ls')) as [r|] eqn:E; [|discriminate]. rewrite (IH _ _ E g) by lia. exact H.
Qed.
Lemma packed_records b t : packed b t -> length b = 4096 * (1 + (length (tl (t_xss t)) + 511) / 512).
Proof.
  intros (s0 & s1 & s2 & s3 & ps & ns & js & pad0 & xs & pad1 & nxs & jxs & xss & E & L0 & L1 & L2 & L3 & LP & LN & LJ & LZ & FP & FN & FJ & FX & _ & _ & _ & _ & _ & _ & XS & _ & _ & TX & _ & HP).
  assert (CP : length (concat ps) = 192) by exact (eq_trans (concat_length 12 ps FP) (f_equal (Nat.mul 12) LP)).
  assert (CN : length (concat ns) = 64) by exact (eq_trans (concat_length 4 ns FN) (f_equal (Nat.mul 4) LN)).
  assert (CJ : length (concat js) = 128) by exact (eq_trans (concat_length 4 js FJ) (f_equal (Nat.mul 4) LJ)).
  assert (CX : length (concat xs) = 8 * length xs) by exact (concat_length 8 xs FX).
  assert (M : length xss = length xs) by (rewrite <- XS; exact (map_length (dec F) xs)). rewrite TX. cbn [tl]. rewrite M. replace (length xs + 511) with (length xs + 512 - 1) by lia. rewrite Nat.mul_add_distr_l. change 4096 with record_length. rewrite <- HP. rewrite E, !app_length, CP, CN, CJ, CX, L0, L1, L2, L3, LZ. unfold record_length. lia.
Qed.
Lemma records ls ts r t : table_text F ls t -> library_text F r ts ->
  exists b c, ascii_to_binary F (ls ++ r) = Some (b ++ c) /\ ascii_to_binary F ls = Some b /\ ascii_to_binary F r = Some c /\ length b = 4096 * (1 + (length (tl (t_xss t)) + 511) / 512).
Proof.
  intros T H. destruct (convert_library r ts H (S (length r)) ltac:(lia)) as (bs & C & P). destruct (table_lines ls t T) as (LL & h0 & q & E & NS).
  destruct (convert_table ls t r T) as (b & C1 & P1). destruct (convert_table ls t [] T) as (b' & C2 & P2). rewrite app_nil_r in C2.
  assert (EB : b' = b).
  { pose proof (lt_old F ls t [] [] T (lt_nil F)) as X. clear X. destruct T as [(h0' & h1 & ps & ns & js & ds & E' & L1 & L2 & L3 & _ & _ & _ & _ & _ & _ & (nxs & TN & LN & FN & xss & TX & NN & FX & LD) & _)].
    assert (S1 : nth_error ls 0 = nth_error (ls ++ r) 0 /\ nth_error ls 1 = nth_error (ls ++ r) 1) by (rewrite E'; split; reflexivity). destruct S1 as [S1 S2].
    destruct (lines_parts h0' h1 ps ns js ds L1 L2 L3 r) as (c1 & c2 & c3 & c4 & _ & _). destruct (lines_parts h0' h1 ps ns js ds L1 L2 L3 []) as (d1 & d2 & d3 & d4 & _ & _). rewrite app_nil_r in d1, d2, d3, d4. rewrite <- E' in c1, c2, c3, c4, d1, d2, d3, d4.
    apply Forall2_and_l in FN. destruct FN as [FN _]. pose proof (all_some_ok _ _ _ FN) as AN.
    unfold convert_one in C1, C2. rewrite <- S1, <- S2, c1, c2, c3 in C1. rewrite d1, d2, d3 in C2. unfold tokens in C1, C2. rewrite !words_join_lines in C1, C2. rewrite AN in C1, C2.
    destruct nxs as [|n0 nxs']; [discriminate|]. cbn [nth] in NN.
    assert (NL : Z.to_nat ((n0 + 3) / 4) = length ds).
    { rewrite NN, LD. change 4%Z with (Z.of_nat 4). change 3%Z with (Z.of_nat 3). rewrite <- Nat2Z.inj_add, <- Nat2Z.inj_div. apply Nat2Z.id. }
    cbv zeta in C1, C2. rewrite NL, c4 in C1. rewrite NL, d4 in C2. rewrite C1 in C2. congruence. }
  subst b'. exists b, (concat bs). split; [|split; [|split; [exact C | exact (packed_records b t P1)]]].
  - unfold ascii_to_binary. apply (convert_fuel (S (S (length r)))); [|rewrite app_length; lia]. cbn [convert]. assert (HE : ls ++ r = h0 :: (q ++ r)) by (rewrite E; reflexivity). rewrite HE, NS, <- HE, C1.
    assert (S2 : skipn (length ls) (ls ++ r) = r) by (now rewrite skipn_app, skipn_all, Nat.sub_diag). rewrite S2. cbn [convert] in C. rewrite C. reflexivity.
  - unfold ascii_to_binary. apply (convert_fuel 2); [|lia]. cbn [convert]. rewrite E at 1. rewrite NS, C2, skipn_all. f_equal. apply app_nil_r.
Qed.
End Float.
