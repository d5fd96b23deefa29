(** Proofs about thermal decks and runs of NJOY. *)
From Coq Require Import List Bool Arith Lia ZArith Ascii String.
From Verif Require Import Text Dec Deck_Model Deck_Spec Deck_Proofs Deck_RunProofs Deck_NjoyProofs Deck_FormProofs Therm_Model Therm_Spec.
From Verif Require Njoy_Model.
Import ListNotations.
Local Open Scope nat_scope.
Local Open Scope list_scope.

(** *** Running NJOY *)
Lemma num_inj a b : num a = num b -> a = b.
Proof. unfold num. intros H. apply decZ_inj in H. lia. Qed.
Lemma tape_inj a b : tape a = tape b -> a = b.
Proof. unfold tape. intros H. apply app_inv_head in H. now apply num_inj. Qed.
Lemma eqt_spec a b : reflect (a = b) (eqt a b).
Proof. destruct (eqt a b) eqn:E; constructor; [now apply eqt_eq|]. intros ->. rewrite (proj2 (eqt_eq b b) eq_refl) in E. easy. Qed.
Lemma copies_get fs l : forall d0 d, NoDup (map fst l) -> copies fs l d0 = inl d ->
  forall k c, d k = Some c <-> (exists n f, In (n, f) l /\ k = tape n /\ fs f = Some c) \/ ((forall n f, In (n, f) l -> k <> tape n) /\ d0 k = Some c).
Proof.
  induction l as [|[n f] l IH]; intros d0 d N C k c; cbn [copies] in C.
  - inversion C; subst. split; [intros H; right; split; [easy|exact H]|]. intros [(? & ? & [] & _)|[_ H]]; exact H.
  - cbn [map fst] in N. apply NoDup_cons_iff in N as [NI N]. destruct (fs f) as [b|] eqn:F; [|easy].
    rewrite (IH _ _ N C k c). unfold write. destruct (eqt_spec k (tape n)) as [->|D].
    + split.
      * intros [(n' & f' & I & E & G)|[_ E]].
        -- apply tape_inj in E. subst n'. destruct NI. apply in_map_iff. now exists (n, f').
        -- left. exists n, f. split; [now left|]. split; [easy|]. congruence.
      * intros [(n' & f' & [I|I] & E & G)|[A _]].
        -- inversion I; subst. right. split; [|congruence]. intros n'' f'' J E2. apply tape_inj in E2. subst. apply NI. apply in_map_iff. now exists (n'', f'').
        -- apply tape_inj in E. subst n'. destruct NI. apply in_map_iff. now exists (n, f').
        -- destruct (A n f); [now left|easy].
    + split.
      * intros [(n' & f' & I & E & G)|[A E]]; [left; exists n', f'; split; [now right|easy]|]. right. split; [|easy]. intros n' f' [J|J]; [inversion J; subst; easy|now apply (A n' f')].
      * intros [(n' & f' & [I|I] & E & G)|[A E]]; [inversion I; subst; easy|left; now exists n', f'|]. right. split; [|easy]. intros n' f' J. apply (A n' f'). now right.
Qed.
Lemma copies_tapes fs l d : NoDup (map fst l) -> copies fs l empty = inl d -> tapes l fs d.
Proof.
  intros N C k c. rewrite (copies_get _ _ _ _ N C). split; [|now left]. intros [H|[_ H]]; [exact H|]. discriminate H.
Qed.
Lemma copies_ok fs l : (forall n f, In (n, f) l -> fs f <> None) -> forall d0, exists d, copies fs l d0 = inl d.
Proof.
  induction l as [|[n f] l IH]; intros A d0; [now exists d0|]. cbn [copies].
  destruct (fs f) eqn:F; [apply IH; intros n' f' I; apply (A n'); now right|]. destruct (A n f); [now left|easy].
Qed.
Lemma copies_bad fs l : forall d0 e, copies fs l d0 = inr e -> exists n f, In (n, f) l /\ fs f = None /\ e = NoFile f.
Proof.
  induction l as [|[n f] l IH]; intros d0 e C; [easy|]. cbn [copies] in C. destruct (fs f) eqn:F.
  - apply IH in C as (n' & f' & I & R). exists n', f'. split; [now right|easy].
  - inversion C. exists n, f. split; [now left|easy].
Qed.
Lemma delivered_delete n l : forall d f, ~ In n (map fst l) -> delivered l (delete (tape n) d) f = delivered l d f.
Proof.
  induction l as [|[m f'] l IH]; intros d f N; [easy|]. cbn [delivered]. rewrite IH by (cbn in N; tauto).
  destruct (delivered l d f); [easy|]. destruct (eqt f f'); [|easy]. unfold delete. destruct (eqt_spec (tape m) (tape n)) as [E|]; [|easy].
  apply tape_inj in E. subst. cbn in N. tauto.
Qed.
Lemma moves_get l : forall d fs f, NoDup (map fst l) -> moves l d fs f = match delivered l d f with Some c => Some c | None => fs f end.
Proof.
  induction l as [|[n f'] l IH]; intros d fs f N; [easy|]. cbn [map fst] in N. apply NoDup_cons_iff in N as [NI N]. cbn [moves delivered].
  destruct (d (tape n)) as [c|] eqn:D.
  - rewrite IH, delivered_delete by easy. destruct (delivered l d f); [easy|]. unfold write. destruct (eqt f f'); now rewrite ?D.
  - rewrite IH by easy. destruct (delivered l d f); [easy|]. now destruct (eqt f f').
Qed.
Lemma run_fails njoy cmds tin tout input fs fs' e : run njoy cmds tin tout input fs = (fs', Some e) ->
  fs' = noted cmds input fs /\
  match e with
  | NoFile f => (exists n, In (n, f) tin) /\ noted cmds input fs f = None
  | NoProgram => exists d, njoy cmds d = None
  | Failed c => c <> 0%Z /\ exists d d', njoy cmds d = Some (c, d')
  end.
Proof.
  unfold run. fold (noted cmds input fs). destruct (copies (noted cmds input fs) tin empty) as [d|e0] eqn:C.
  - destruct (njoy cmds d) as [[c d']|] eqn:J.
    + destruct (Z.eqb_spec c 0); [easy|]. intros E. inversion E; subst. split; [easy|]. split; [easy|]. now exists d, d'.
    + intros E. inversion E; subst. split; [easy|]. now exists d.
  - intros E. inversion E; subst. split; [easy|]. apply copies_bad in C as (n & f & I & F & ->). split; [now exists n|easy].
Qed.
Lemma run_works njoy cmds tin tout input fs fs' : NoDup (map fst tin) -> NoDup (map fst tout) -> run njoy cmds tin tout input fs = (fs', None) ->
  exists d d', tapes tin (noted cmds input fs) d /\ njoy cmds d = Some (0%Z, d') /\
    forall f, fs' f = match delivered tout d' f with Some c => Some c | None => noted cmds input fs f end.
Proof.
  intros N1 N2. unfold run. fold (noted cmds input fs). destruct (copies (noted cmds input fs) tin empty) as [d|e0] eqn:C; [|easy].
  destruct (njoy cmds d) as [[c d']|] eqn:J; [|easy]. destruct (Z.eqb_spec c 0); [|easy]. subst c. intros E. inversion E; subst.
  exists d, d'. split; [now apply copies_tapes|]. split; [easy|]. intros f. now apply moves_get.
Qed.
Lemma run_ends njoy cmds tin tout input fs : NoDup (map fst tin) -> (forall n f, In (n, f) tin -> noted cmds input fs f <> None) ->
  (forall d, tapes tin (noted cmds input fs) d -> exists d', njoy cmds d = Some (0%Z, d')) -> snd (run njoy cmds tin tout input fs) = None.
Proof.
  intros N A J. unfold run. fold (noted cmds input fs). destruct (copies_ok _ _ A empty) as [d C]. rewrite C.
  destruct (J d (copies_tapes _ _ _ N C)) as [d' ->]. reflexivity.
Qed.

(** *** The deck *)
Record known (x : inputs) (m : material) (emax error : text) (l : list temperature) (e : locals) : Prop := {
  k_nendf : e (str "nendf") = Some (w "20");
  k_thermal : e (str "nthermal_endf") = Some (w "21");
  k_npendf : e (str "npendf") = Some (w "22");
  k_mat : e (str "mat") = Some (decZ (mat x));
  k_mat_thermal : e (str "mat_thermal") = Some (decZ (mat_thermal x));
  k_library : e (str "library") = Some (library (lib x));
  k_zsymam : e (str "zsymam") = Some (zsymam x);
  k_zsymam_thermal : e (str "zsymam_thermal") = Some (zsymam_thermal x);
  k_error : e (str "error") = Some error;
  k_num_temp : e (str "num_temp") = Some (num (List.length l));
  k_temps : e (str "temps") = Some (joined [sp] (map shown l));
  k_name : e (str "data.name") = Some (name m);
  k_nmix : e (str "data.nmix") = Some (num (nmix m));
  k_zaids : e (str "zaids") = Some (joined [sp] (map decZ (firstn 3 (zaids m))));
  k_elastic : e (str "elastic") = Some (elastic x);
  k_elastic_mt : e (str "mt_elastic") = Some (elastic_mt x);
  k_elastic_type : e (str "elastic_type") = Some (elastic_type x);
  k_emax : e (str "energy_max") = Some emax;
  k_natom : e (str "natom") = Some (decZ (atoms x));
  k_iform : e (str "iform") = Some (w "0");
  k_inelastic : e (str "inelastic") = Some (w "2");
  k_nbroadr : e (str "nbroadr") = Some (w "23");
  k_t1i : e (str "nthermr1_in") = Some (w "23");
  k_t1 : e (str "nthermr1") = Some (w "24");
  k_t2i : e (str "nthermr2_in") = Some (w "24");
  k_t2 : e (str "nthermr2") = Some (w "25") }.
Lemma prepared_known x m emax l error : known x m emax error l (env (prepared x m emax l error)).
Proof. unfold prepared, elastic, elastic_mt, elastic_type. split; unfold elastic, elastic_mt, elastic_type; destruct (coherence x); reflexivity. Qed.
Definition names : list string := ["nendf"; "nthermal_endf"; "npendf"; "mat"; "mat_thermal"; "library"; "zsymam"; "zsymam_thermal"; "error"; "num_temp"; "temps"; "data.name"; "data.nmix"; "zaids";
  "elastic"; "mt_elastic"; "elastic_type"; "energy_max"; "natom"; "iform"; "inelastic"; "nbroadr"; "nthermr1_in"; "nthermr1"; "nthermr2_in"; "nthermr2"]%string.
Lemma known_set x m emax error l e k v : apart k names = true -> known x m emax error l e -> known x m emax error l (set k v e).
Proof. intros A []. split; (rewrite set_other; [assumption|]); apply (apart_other _ _ _ A); cbn; tauto. Qed.
Definition ok (x : inputs) (m : material) (emax error : text) (l : list temperature) : Prop :=
  numeral error /\ numeral emax /\ map shown l <> [] /\ Forall numeral (map shown l) /\
  quotable (library (lib x)) /\ quotable (zsymam x) /\ quotable (zsymam_thermal x) /\ quotable (name m) /\ firstn 3 (zaids m) <> [].
Lemma elastic_numerals x : numeral (elastic x) /\ numeral (elastic_mt x) /\ numeral (elastic_type x).
Proof.
  unfold elastic, elastic_mt, elastic_type. destruct (coherence x).
  - split; [apply (numeral_num 1)|]. split; [apply (numeral_num 223)|apply numeral_decZ].
  - split; [apply (numeral_num 0)|]. split; [apply (numeral_num 0)|apply (numeral_num 0)].
Qed.
Lemma small_numerals : numeral (w "0") /\ numeral (w "2") /\ numeral (w "20") /\ numeral (w "21") /\ numeral (w "22") /\ numeral (w "23") /\ numeral (w "24") /\ numeral (w "25").
Proof.
  repeat split; try discriminate; vm_compute; intuition congruence.
Qed.
Ltac given K O := destruct O as (? & ? & ? & ? & ? & ? & ? & ? & ?); destruct K; pose proof small_numerals as (? & ? & ? & ? & ? & ? & ? & ?);
  match goal with x : inputs |- _ => destruct (elastic_numerals x) as (? & ? & ?) end.
Lemma th_reconr x m emax error l e : ok x m emax error l -> known x m emax error l e -> yields e T_RECONR (firstn 8 (pointwise x error l)).
Proof. intros O K. given K O. unfold pointwise. cbn [firstn]. filled1 e T_RECONR. Qed.
Lemma th_broadr x m emax error l e : ok x m emax error l -> known x m emax error l e -> yields e T_BROADR (skipn 8 (pointwise x error l)).
Proof.
  intros O K. given K O. unfold pointwise, nt, ts. cbn [skipn].
  let x := eval vm_compute in (piece_of 0 5 T_BROADR) in let y := eval vm_compute in (piece_of 6 99 T_BROADR) in
    replace T_BROADR with (x ++ (str "{temps}" ++ [] ++ [nl]) ++ y) by (vm_compute; reflexivity);
    match goal with |- yields _ _ ?l => change l with (firstn 4 l ++ [nth 4 l (c0 [])] ++ skipn 5 l) end;
    apply yields_app; [filled1 e x|apply yields_app; [now apply yields2_1, (yields_row e false)|filled1 e y]].
Qed.
Lemma th_thermr x m emax error l e : ok x m emax error l -> known x m emax error l e -> yields e T_THERMR (free_gas x emax error l ++ bound x emax error l).
Proof.
  intros O K. given K O. unfold free_gas, bound, nt, ts.
  let x := eval vm_compute in (piece_of 0 4 T_THERMR) in let y := eval vm_compute in (piece_of 5 9 T_THERMR) in let z := eval vm_compute in (piece_of 10 99 T_THERMR) in
    replace T_THERMR with (x ++ (str "{temps}" ++ [] ++ [nl]) ++ y ++ (str "{temps}" ++ [] ++ [nl]) ++ z) by (vm_compute; reflexivity);
    match goal with |- yields _ _ ?l => change l with (firstn 3 l ++ [nth 3 l (c0 [])] ++ firstn 4 (skipn 4 l) ++ [nth 8 l (c0 [])] ++ skipn 9 l) end;
    cbn [app firstn skipn nth];
    apply (yields_app e x _ [_; _; _]); [filled1 e x|apply (yields_app e _ _ [_]); [now apply yields2_1, (yields_row e false)|
      apply (yields_app e y _ [_; _; _; _]); [filled1 e y|apply (yields_app e _ _ [_]); [now apply yields2_1, (yields_row e false)|filled1 e z]]]].
Qed.
Lemma row_slash e v : e (str "zaids") = Some (joined [sp] v) -> v <> [] -> Forall numeral v -> yields e (str "{zaids}" ++ str " /" ++ [nl]) [(v, true)].
Proof.
  intros E N F. exists (joined [sp] v ++ str " /" ++ [nl]). split.
  - apply format_app; [|reflexivity]. change (format e (str "{zaids}")) with (match e (str "zaids"), Some [] with Some v, Some t => Some (v ++ t) | _, _ => None end).
    rewrite E. now rewrite app_nil_r.
  - unfold whole. rewrite run_app, run_row by easy. unfold Deck_Proofs.run, start; cbn; unfold line_ends, flush; cbn; rewrite row_eq by easy; easy.
Qed.
Lemma zaids_numerals (l : list Z) : Forall numeral (map decZ l).
Proof. rewrite Forall_map, Forall_forall. intros z _. apply numeral_decZ. Qed.
Lemma th_acer x m emax error l e i t : ok x m emax error l -> known x m emax error l e -> e (str "nthermal_acer_in") = Some (w "25") -> e (str "nace") = Some (num (26 + 2 * i)) -> e (str "ndir") = Some (num (27 + 2 * i)) ->
  e (str "ext") = Some (two_digits (i + 1)) -> e (str "temperature") = Some (shown t) -> numeral (shown t) -> yields e T_THERMAL_ACER (thermal_acer x m emax i t).
Proof.
  intros O K NI X D EX T NT. pose proof (numeral_two (i + 1)). pose proof (zaids_numerals (firstn 3 (zaids m))).
  assert (map decZ (firstn 3 (zaids m)) <> []) as ZN by (destruct O as (_ & _ & _ & _ & _ & _ & _ & _ & Z0); now destruct (firstn 3 (zaids m))).
  given K O. unfold thermal_acer.
  set (N1 := num (26 + 2 * i)) in *. set (N2 := num (27 + 2 * i)) in *. assert (numeral N1) by apply numeral_num. assert (numeral N2) by apply numeral_num. clearbody N1 N2.
  let x := eval vm_compute in (piece_of 0 6 T_THERMAL_ACER) in let y := eval vm_compute in (piece_of 7 99 T_THERMAL_ACER) in
    replace T_THERMAL_ACER with (x ++ (str "{zaids}" ++ str " /" ++ [nl]) ++ y) by (vm_compute; reflexivity);
    match goal with |- yields _ _ ?l => change l with (firstn 5 l ++ [nth 5 l (c0 [])] ++ skipn 6 l) end;
    cbn [firstn nth skipn];
    apply yields_app; [filled1 e x|apply yields_app; [now apply row_slash|filled1 e y]].
Qed.
Ltac kept ::= repeat (apply known_set; [reflexivity|]); try assumption.
Lemma th_acers x m emax error l ace xsdir r : forall i s, ok x m emax error l -> known x m emax error l (env s) -> env s (str "nthermal_acer_in") = Some (w "25") ->
  Forall (fun t => numeral (shown t)) r -> below (25 + 2 * i) (outs s) ->
  exists s' z, acers T_THERMAL_ACER 25 ace xsdir i r s = Some s' /\ cmds s' = cmds s ++ z /\ whole z (concat (mapi (thermal_acer x m emax) i r)) /\
    outs s' = outs s ++ concat (mapi (fun i t => [(26 + 2 * i, ace ++ w "_" ++ tenths t); (27 + 2 * i, xsdir ++ w "_" ++ tenths t)]) i r).
Proof.
  induction r as [|t r IH]; intros i s O K NI F B.
  - exists s, []. cbn. rewrite !app_nil_r. now repeat split.
  - inversion F as [|? ? Ft Fl]; subst. cbn [acers]. destruct s as [e c d n]. cbn [env cmds outs nlast] in *. exec.
    replace (25 + 1 + 2 * i) with (26 + 2 * i) by lia. replace (26 + 2 * i + 1) with (27 + 2 * i) by lia.
    match goal with |- context [emit T_THERMAL_ACER ?s] => destruct (th_acer x m emax error l (env s) i t O ltac:(kept) ltac:(look) ltac:(look) ltac:(look) ltac:(look) ltac:(look) Ft) as (y & Y & W);
      unfold emit; rewrite Y end.
    cbn [option_map]. exec.
    rewrite (set_fresh (26 + 2 * i)) by (apply (below_fresh (25 + 2 * i)); [easy|lia]).
    rewrite set_fresh. 2: { rewrite map_app, in_app_iff. intros [I|[I|[]]]; [revert I; apply (below_fresh (25 + 2 * i)); [easy|lia]|cbn in I; lia]. }
    match goal with |- context [acers _ _ _ _ _ _ ?s] => destruct (IH (S i) s O) as (s' & z & E & C & W' & OO); [cbn [env]; kept|cbn [env]; look|easy| |] end.
    { cbn [outs]. apply (below_app (26 + 2 * i)); [|lia|apply below1; lia].
      apply (below_app (25 + 2 * i)); [easy|lia|apply below1; lia]. }
    exists s', (y ++ z). split; [exact E|]. rewrite C, OO. cbn [cmds outs]. split; [now rewrite app_assoc|]. split.
    + cbn [mapi concat]. now apply whole_app.
    + cbn [mapi concat]. now rewrite <- !app_assoc.
Qed.
Lemma lookup_in k m l : lookup k l = Some m -> In (k, m) l.
Proof. induction l as [|[k' m'] l IH]; [easy|]. cbn [lookup]. destruct (Z.eqb_spec k k') as [->|]; intros H; [left; congruence|right; auto]. Qed.
Definition named_well (m : material) : bool := forallb (fun c => negb (eqc c nl || eqc c quote)) (name m) && match zaids m with [] => false | _ => true end.
Lemma table_ok : forallb (fun p => named_well (snd p)) thermal_data = true. Proof. vm_compute. reflexivity. Qed.
Lemma data_ok k m : lookup k thermal_data = Some m -> quotable (name m) /\ firstn 3 (zaids m) <> [].
Proof.
  intros H. apply lookup_in in H. pose proof table_ok as T. rewrite forallb_forall in T. apply T in H. cbn [snd] in H. apply andb_true_iff in H as [H1 H2]. split.
  - rewrite forallb_forall in H1. split; intros I; apply H1 in I; vm_compute in I; easy.
  - destruct (zaids m); easy.
Qed.
Lemma lib_quotable (l : text * Z * Z) : quotable (fst (fst l)) -> quotable (library l).
Proof.
  destruct l as [[n v] r]. cbn [fst library]. intros [Q1 Q2].
  destruct (numeral_quotable _ (numeral_decZ v)) as [A B]. destruct (numeral_quotable _ (numeral_decZ r)) as [C D].
  split; rewrite !in_app_iff; cbn; intuition discriminate.
Qed.
Lemma prepared_cmds x m emax l error : cmds (prepared x m emax l error) = T_RECONR ++ T_BROADR ++ T_THERMR /\ outs (prepared x m emax l error) = [].
Proof. unfold prepared. destruct (coherence x); split; reflexivity. Qed.
Lemma deck_some x given ace xsdir error m emax natom l : proper x given error -> lookup (mat_thermal x) thermal_data = Some m ->
  nth_error (list_values x) 3 = Some emax -> nth_error (list_values x) 5 = Some natom -> temps_of x given = Some l ->
  exists t, cards t = thermal_cards x m emax error l /\ thermal_deck x given ace xsdir error = inl (t, [(20, neutron_file x); (21, thermal_file x)], thermal_files ace xsdir l).
Proof.
  intros P L V3 V5 T. unfold thermal_deck. rewrite L, V3, V5, T.
  destruct (p_temps _ _ _ P l T) as [TN TF]. destruct (data_ok _ _ L) as [Q Z0]. destruct (p_names _ _ _ P) as (Q1 & Q2 & Q3).
  assert (ok x m emax error l) as O.
  { split; [apply (p_error _ _ _ P)|]. split. { pose proof (p_values _ _ _ P) as F. rewrite Forall_forall in F. apply F. now apply nth_error_In in V3. }
    split; [now destruct l|]. split; [now rewrite Forall_map|]. split; [now apply lib_quotable|]. easy. }
  pose proof (prepared_known x m emax l error) as K. destruct (prepared_cmds x m emax l error) as [C OU].
  set (s := prepared x m emax l error) in *. clearbody s.
  assert (yields (env s) (cmds s) (pointwise x error l ++ free_gas x emax error l ++ bound x emax error l)) as (y & Y & WY).
  { rewrite C. rewrite <- (firstn_skipn 8 (pointwise x error l)), <- app_assoc.
    apply yields_app; [now apply (th_reconr x m emax)|]. apply yields_app; [now apply (th_broadr x m emax)|now apply (th_thermr x m)]. }
  unfold reformat. rewrite Y. cbn [option_map bind]. destruct s as [e c0' d n]. cbn [env cmds outs nlast] in *. subst d.
  match goal with |- context [acers _ _ _ _ _ _ ?s] => destruct (th_acers x m emax error l ace xsdir l 0 s O) as (s' & z & E & C' & W & OO); [unfold put; cbn [env]; kept|unfold put; cbn [env]; look|easy|apply Forall_nil|] end.
  rewrite E. eexists. split; [|f_equal; f_equal; rewrite OO; reflexivity].
  apply whole_cards. rewrite C'. cbn [cmds]. unfold put. cbn [cmds]. unfold thermal_cards.
  rewrite <- !app_assoc.
  replace (pointwise x error l ++ free_gas x emax error l ++ bound x emax error l ++ concat (mapi (thermal_acer x m emax) 0 l) ++ [c0 [w "stop"]])
    with ((pointwise x error l ++ free_gas x emax error l ++ bound x emax error l) ++ concat (mapi (thermal_acer x m emax) 0 l) ++ [c0 [w "stop"]]) by now rewrite <- !app_assoc.
  apply whole_app; [exact WY|]. apply whole_app; [exact W|]. vm_compute. reflexivity.
Qed.
Lemma deck_none x given ace xsdir error :
  (lookup (mat_thermal x) thermal_data = None -> thermal_deck x given ace xsdir error = inr KeyError) /\
  (lookup (mat_thermal x) thermal_data <> None -> List.length (list_values x) < 6 -> thermal_deck x given ace xsdir error = inr IndexError).
Proof.
  unfold thermal_deck. split; [now intros ->|]. intros L S. destruct (lookup (mat_thermal x) thermal_data); [|easy].
  destruct (nth_error (list_values x) 5) eqn:E; [|now destruct (nth_error (list_values x) 3)]. assert (nth_error (list_values x) 5 <> None) as B by congruence. apply nth_error_Some in B. lia.
Qed.

(** *** A whole run *)
Lemma files_keys ace xsdir l : forall i, (forall k, In k (map fst (concat (mapi (fun i t => [(26 + 2 * i, ace ++ w "_" ++ tenths t); (27 + 2 * i, xsdir ++ w "_" ++ tenths t)]) i l))) -> 26 + 2 * i <= k) /\
  NoDup (map fst (concat (mapi (fun i t => [(26 + 2 * i, ace ++ w "_" ++ tenths t); (27 + 2 * i, xsdir ++ w "_" ++ tenths t)]) i l))).
Proof.
  induction l as [|t l IH]; intros i; [split; [easy|apply NoDup_nil]|]. destruct (IH (S i)) as [A N]. cbn [mapi concat]. rewrite map_app. cbn [map fst app]. split.
  - intros k [E|[E|I]]; [lia|lia|]. apply A in I. lia.
  - apply NoDup_cons. { intros [E|I]; [lia|]. apply A in I. lia. } apply NoDup_cons; [|exact N]. intros I. apply A in I. lia.
Qed.
Lemma thermal_keys ace xsdir l : NoDup (map fst (thermal_files ace xsdir l)).
Proof. apply (files_keys ace xsdir l 0). Qed.
Lemma delivered_one l : forall d n f, NoDup (map snd l) -> In (n, f) l -> delivered l d f = d (tape n).
Proof.
  assert (forall l d f, ~ In f (map snd l) -> delivered l d f = None) as Z0.
  { intros l0 d f. induction l0 as [|[m g] l0 IH]; intros N; [easy|]. cbn [delivered]. cbn in N. rewrite IH by tauto. destruct (eqt_spec f g); [subst; tauto|easy]. }
  induction l as [|[m g] l IH]; intros d n f N I; [easy|]. cbn [map snd] in N. apply NoDup_cons_iff in N as [NI N]. cbn [delivered]. destruct I as [I|I].
  - inversion I; subst. rewrite Z0 by easy. now rewrite (proj2 (eqt_eq f f) eq_refl).
  - rewrite (IH d n f N I). destruct (d (tape n)); [easy|]. destruct (eqt_spec f g) as [->|]; [|easy]. destruct NI. apply in_map_iff. now exists (n, g).
Qed.
Lemma delivered_other l d f : ~ In f (map snd l) -> delivered l d f = None.
Proof. induction l as [|[m g] l IH]; intros N; [easy|]. cbn [delivered]. cbn in N. rewrite IH by tauto. destruct (eqt_spec f g); [subst; tauto|easy]. Qed.
Lemma thermal_run njoy x given ace xsdir error input fs fs' : proper x given error -> make_ace_thermal njoy x given ace xsdir error input fs = (fs', None) ->
  exists m emax l t d d', lookup (mat_thermal x) thermal_data = Some m /\ nth_error (list_values x) 3 = Some emax /\ temps_of x given = Some l /\
    cards t = thermal_cards x m emax error l /\ tapes [(20, neutron_file x); (21, thermal_file x)] (noted t input fs) d /\ njoy t d = Some (0%Z, d') /\
    forall f, fs' f = match delivered (thermal_files ace xsdir l) d' f with Some c => Some c | None => noted t input fs f end.
Proof.
  intros P. unfold make_ace_thermal. destruct (lookup (mat_thermal x) thermal_data) as [m|] eqn:L.
  2: { now rewrite (proj1 (deck_none x given ace xsdir error) L). }
  destruct (nth_error (list_values x) 3) as [emax|] eqn:V3. 2: { unfold thermal_deck. now rewrite L, V3. }
  destruct (nth_error (list_values x) 5) as [na|] eqn:V5. 2: { unfold thermal_deck. now rewrite L, V3, V5. }
  destruct (temps_of x given) as [l|] eqn:T. 2: { unfold thermal_deck. now rewrite L, V3, V5, T. }
  destruct (deck_some x given ace xsdir error m emax na l P L V3 V5 T) as (t & C & ->).
  destruct (run njoy t _ _ input fs) as [fs1 [e|]] eqn:R; [easy|]. intros E. inversion E; subst.
  apply run_works in R as (d & d' & A & B & F); [|repeat constructor; cbn; intuition discriminate|apply thermal_keys].
  exists m, emax, l, t, d, d'. easy.
Qed.
Lemma thermal_fails njoy x given ace xsdir error input fs fs' e : make_ace_thermal njoy x given ace xsdir error input fs = (fs', Some e) ->
  forall f, Some f <> input -> fs' f = fs f.
Proof.
  unfold make_ace_thermal. destruct (thermal_deck x given ace xsdir error) as [[[t ti] to_]|e'].
  - destruct (run njoy t ti to_ input fs) as [fs1 [e0|]] eqn:R; [|easy]. intros E f N. inversion E; subst. apply run_fails in R as [-> _].
    unfold noted. destruct input as [g|]; [|easy]. unfold write. destruct (eqt_spec f g); [congruence|easy].
  - intros E f N. now inversion E.
Qed.
Lemma ace_unwritten njoy x given ace xsdir error input fs fs' : proper x given error -> make_ace_thermal njoy x given ace xsdir error input fs = (fs', None) ->
  input <> Some ace -> (forall t, ace <> xsdir ++ w "_" ++ t) -> fs' ace = fs ace.
Proof.
  intros P R I X. destruct (thermal_run _ _ _ _ _ _ _ _ _ P R) as (m & emax & l & t & d & d' & _ & _ & _ & _ & _ & _ & F). rewrite F.
  rewrite delivered_other.
  - unfold noted. destruct input as [g|]; [|easy]. unfold write. destruct (eqt_spec ace g); [congruence|easy].
  - unfold thermal_files. intros J. apply in_map_iff in J as ([n g] & E & J). cbn in E. subst g. apply in_concat in J as (r & J & K).
    apply mapi_in in J as (j & u & _ & ->).
    destruct K as [K|[K|[]]]; inversion K as [[A B]].
    + assert (List.length (ace ++ w "_" ++ tenths u) = List.length ace) as LL by (f_equal; exact B). rewrite !app_length in LL. cbn in LL. lia.
    + now apply (X (tenths u)).
Qed.
Definition lost (m : material) : bool := 3 <? List.length (zaids m).
Lemma zaids_lost k m : lookup k thermal_data = Some m -> (firstn 3 (zaids m) <> zaids m <-> In k [47; 49; 58; 59]%Z).
Proof.
  intros H. apply lookup_in in H. unfold thermal_data in H. cbn [In] in H.
  repeat (destruct H as [H|H]; [injection H as <- <-; cbn [zaids firstn In]; split; [intros Q; first [now destruct Q|tauto]|intros Q; try (intuition discriminate); intros A; discriminate]|]). easy.
Qed.
