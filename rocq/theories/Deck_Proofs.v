(** Proofs about the text of NJOY decks. *)
From Coq Require Import List Bool Arith ZArith Ascii String Lia.
From Verif Require Import Text Dec Deck_Model Deck_Spec.
From Verif Require Njoy_Model.
Import ListNotations.
Local Open Scope nat_scope.
Local Open Scope list_scope.

(** *** [format] *)
Definition unbraced (t : text) : Prop := ~ In "{"%char t /\ ~ In "}"%char t.
Lemma unbraced_app a b : unbraced a -> unbraced b -> unbraced (a ++ b).
Proof. unfold unbraced. rewrite !in_app_iff. tauto. Qed.
Lemma unbraced_nil : unbraced []. Proof. split; intros []. Qed.
Lemma unbraced_cons c t : eqc c "{" = false -> eqc c "}" = false -> unbraced t -> unbraced (c :: t).
Proof. rewrite !eqc_neq. intros A B [C D]. split; intros [E|E]; easy. Qed.
Lemma parse_app n : forall f a b ps, List.length a <= n -> parse f a = Some ps -> parse f (a ++ b) = option_map (app ps) (parse None b).
Proof.
  induction n as [|n IH]; intros f a b ps L H.
  - destruct a; [|cbn in L; lia]. cbn in *. destruct f; [discriminate|]. injection H as <-. now destruct (parse None b).
  - destruct a as [|c a].
    + cbn in *. destruct f; [discriminate|]. injection H as <-. now destruct (parse None b).
    + cbn [List.length] in L. cbn [parse app] in *. destruct f as [m|].
      * destruct (eqc c "}").
        -- destruct (parse None a) as [qs|] eqn:E; [|discriminate]. injection H as <-.
           rewrite (IH None a b qs) by (easy || lia). now destruct (parse None b).
        -- destruct (eqc c "{"); [discriminate|]. apply IH; [lia|easy].
      * destruct (eqc c "{").
        -- destruct a as [|c' a]; [discriminate|]. cbn [app]. destruct (eqc c' "{") eqn:Ec.
           ++ destruct (parse None a) as [qs|] eqn:E; [|discriminate]. injection H as <-.
              rewrite (IH None a b qs) by (easy || cbn in L; lia). now destruct (parse None b).
           ++ change (c' :: a ++ b) with ((c' :: a) ++ b). apply IH; [lia|easy].
        -- destruct (eqc c "}").
           ++ destruct a as [|c' a]; [discriminate|]. cbn [app]. destruct (eqc c' "}") eqn:Ec; [|discriminate].
              destruct (parse None a) as [qs|] eqn:E; [|discriminate]. injection H as <-.
              rewrite (IH None a b qs) by (easy || cbn in L; lia). now destruct (parse None b).
           ++ destruct (parse None a) as [qs|] eqn:E; [|discriminate]. injection H as <-.
              rewrite (IH None a b qs) by (easy || lia). now destruct (parse None b).
Qed.
Lemma parse_unbraced t : unbraced t -> parse None t = Some (map Lit t).
Proof.
  induction t as [|c t IH]; intros [A B]; [easy|].
  cbn [parse]. destruct (eqc c "{") eqn:E1; [apply eqc_eq in E1; subst; elim A; now left|].
  destruct (eqc c "}") eqn:E2; [apply eqc_eq in E2; subst; elim B; now left|].
  rewrite IH; [easy|]. split; intros H; [apply A|apply B]; now right.
Qed.
Lemma fill_lits e t : fill e (map Lit t) = Some t.
Proof. induction t as [|c t IH]; [easy|]. cbn. now rewrite IH. Qed.
Lemma fill_app e a b x y : fill e a = Some x -> fill e b = Some y -> fill e (a ++ b) = Some (x ++ y).
Proof.
  revert x. induction a as [|[c|n] a IH]; cbn; intros x A B.
  - now injection A as <-.
  - destruct (fill e a); [|discriminate]. injection A as <-. now rewrite (IH _ eq_refl B).
  - destruct (e n); [|discriminate]. destruct (fill e a); [|discriminate]. injection A as <-.
    rewrite (IH _ eq_refl B). now rewrite app_assoc.
Qed.
Lemma format_unbraced e t : unbraced t -> format e t = Some t.
Proof. intros H. unfold format. now rewrite parse_unbraced, fill_lits. Qed.
Lemma format_app e a b x y : format e a = Some x -> format e b = Some y -> format e (a ++ b) = Some (x ++ y).
Proof.
  unfold format. intros A B. destruct (parse None a) as [p|] eqn:P; [|discriminate]. destruct (parse None b) as [q|] eqn:Q; [|discriminate].
  rewrite (parse_app (List.length a) None a b p) by easy. rewrite Q. cbn. now apply fill_app.
Qed.

(** *** Reading *)
Definition start (g : list card) : reader := {| got := g; ws := []; cur := []; on := false; slash := false; where_ := Plain |}.
Definition run (t : text) (r : reader) : reader := fold_left step t r.
Definition grown (g : list card) (r : reader) : reader :=
  {| got := g ++ got r; ws := ws r; cur := cur r; on := on r; slash := slash r; where_ := where_ r |}.
Lemma flush_grown g r : flush (grown g r) = grown g (flush r).
Proof. unfold flush. cbn. now destruct (on r). Qed.
Lemma line_ends_grown g r : line_ends (grown g r) = grown g (line_ends r).
Proof.
  unfold line_ends. rewrite flush_grown. unfold grown. cbn. f_equal. destruct (slash (flush r) || _); [now rewrite app_assoc|easy].
Qed.
Lemma step_grown g r c : step (grown g r) c = grown g (step r c).
Proof.
  unfold step. rewrite line_ends_grown, flush_grown. destruct (eqc c nl); [easy|].
  cbn [where_ grown]. destruct (where_ r); [|easy|easy]. now destruct (eqc c sp), (eqc c "/").
Qed.
Lemma run_grown g t : forall r, run t (grown g r) = grown g (run t r).
Proof. induction t as [|c t IH]; intros r; [easy|]. cbn. now rewrite step_grown, IH. Qed.
Lemma run_app a b r : run (a ++ b) r = run b (run a r).
Proof. apply fold_left_app. Qed.

(** A text of whole lines that say [cs]. *)
Definition whole (t : text) (cs : list card) : Prop := run t (start []) = start cs.
Lemma whole_nil : whole [] []. Proof. easy. Qed.
Lemma whole_app a b x y : whole a x -> whole b y -> whole (a ++ b) (x ++ y).
Proof.
  unfold whole. intros A B. rewrite run_app, A.
  replace (start x) with (grown x (start [])) by (unfold grown, start; cbn; now rewrite app_nil_r).
  rewrite run_grown, B. easy.
Qed.
Lemma whole_cards t cs : whole t cs -> cards t = cs.
Proof. unfold whole, run, cards. intros H. unfold blank. fold (start []). now rewrite H. Qed.
Lemma whole_concat {A} (f : A -> text) (g : A -> list card) l : (forall x, In x l -> whole (f x) (g x)) -> whole (concat (map f l)) (flat_map g l).
Proof.
  induction l as [|x l IH]; intros H; [easy|]. cbn. apply whole_app; [apply H; now left|]. apply IH. intros y I. apply H. now right.
Qed.

Lemma numeral_char t c : numeral t -> In c t -> eqc c nl = false /\ eqc c sp = false /\ eqc c "/" = false /\ eqc c quote = false.
Proof.
  intros [_ H] I. specialize (H c I). cbn in H. rewrite !eqc_neq. unfold quote. repeat split; intros ->; tauto.
Qed.
Lemma numeral_unbraced t : numeral t -> unbraced t.
Proof. intros [_ H]. split; intros I; apply (H _ I); cbn; tauto. Qed.
Definition reads (v : text) (r : reader) : reader := {| got := got r; ws := ws r; cur := cur r ++ v; on := true; slash := slash r; where_ := where_ r |}.
Lemma run_plain v : (forall c, In c v -> eqc c nl = false /\ eqc c sp = false /\ eqc c "/" = false /\ eqc c quote = false) ->
  forall r, v <> [] -> where_ r = Plain -> run v r = reads v r.
Proof.
  induction v as [|c v IH]; intros H r N E; [easy|]. cbn [run fold_left].
  destruct (H c (or_introl eq_refl)) as (A & B & C & D).
  assert (step r c = take c Plain r) as ->. { unfold step. now rewrite A, E, B, C, D. }
  destruct v as [|c' v].
  - unfold take, reads. cbn. now rewrite E.
  - fold (run (c' :: v) (take c Plain r)). rewrite IH; [|intros x I; apply H; now right|easy|easy].
    unfold reads, take. cbn. rewrite <- app_assoc. cbn. now rewrite E.
Qed.
Lemma run_numeral v r : numeral v -> where_ r = Plain -> run v r = reads v r.
Proof. intros H E. apply run_plain; [|apply H|easy]. intros c I. now apply (numeral_char v). Qed.
Lemma run_quoted v : forall r, quotable v -> where_ r = Quoted -> on r = true -> run v r = reads v r.
Proof.
  induction v as [|c v IH]; intros r [A B] E O.
  - unfold reads. cbn. rewrite app_nil_r, <- O. now destruct r.
  - cbn [run fold_left]. assert (step r c = take c Quoted r) as ->.
    { unfold step. rewrite E. destruct (eqc c nl) eqn:N; [apply eqc_eq in N; subst; elim A; now left|].
      destruct (eqc c quote) eqn:Q; [apply eqc_eq in Q; subst; elim B; now left|easy]. }
    fold (run v (take c Quoted r)). rewrite IH; [|split; intros I; [apply A|apply B]; now right|easy|easy].
    unfold reads, take. cbn. rewrite <- app_assoc. now rewrite E.
Qed.
(** Words on one line. *)
Lemma run_row v : forall r, v <> [] -> Forall numeral v -> where_ r = Plain -> on r = false -> cur r = [] ->
  run (joined [sp] v) r = {| got := got r; ws := ws r ++ removelast v; cur := last v []; on := true; slash := slash r; where_ := Plain |}.
Proof.
  induction v as [|x v IH]; intros r N F E O C; [easy|]. inversion F as [|? ? Fx Fv]; subst.
  destruct v as [|y v].
  - cbn. rewrite run_numeral by easy. unfold reads. now rewrite C, E, app_nil_r.
  - change (joined [sp] (x :: y :: v)) with (x ++ [sp] ++ joined [sp] (y :: v)). rewrite !run_app, (run_numeral x) by easy.
    assert (run [sp] (reads x r) = {| got := got r; ws := ws r ++ [x]; cur := []; on := false; slash := slash r; where_ := Plain |}) as ->.
    { cbn [run fold_left]. unfold step. cbn [where_ reads]. rewrite E. unfold flush, reads. cbn. now rewrite C, E. }
    rewrite IH by easy. cbn [got ws slash]. rewrite <- app_assoc. easy.
Qed.
(** Words one to a line. *)
Lemma run_column v : forall r, v <> [] -> Forall numeral v -> ws r = [] -> slash r = false -> where_ r = Plain -> on r = false -> cur r = [] ->
  run (joined (sp :: [nl]) v) r = {| got := got r ++ map (fun x => c0 [x]) (removelast v); ws := []; cur := last v []; on := true; slash := false; where_ := Plain |}.
Proof.
  induction v as [|x v IH]; intros r N F W L E O C; [easy|]. inversion F as [|? ? Fx Fv]; subst.
  destruct v as [|y v].
  - cbn. rewrite run_numeral by easy. unfold reads. now rewrite C, E, W, L, app_nil_r.
  - change (joined (sp :: [nl]) (x :: y :: v)) with (x ++ [sp; nl] ++ joined (sp :: [nl]) (y :: v)). rewrite !run_app, (run_numeral x) by easy.
    assert (run [sp; nl] (reads x r) = start (got r ++ [c0 [x]])) as ->.
    { cbn [run fold_left]. unfold step. cbn [where_ reads]. rewrite E. unfold line_ends, flush, reads. cbn. now rewrite C, W, L. }
    rewrite IH by easy. cbn [got start]. rewrite <- app_assoc. easy.
Qed.
Lemma column_eq v : v <> [] -> column v = map (fun x => c0 [x]) (removelast v) ++ [c1 [last v []]].
Proof. induction v as [|x [|y v] IH]; intros H; [easy|easy|]. change (column (x :: y :: v)) with (c0 [x] :: column (y :: v)). rewrite IH by easy. easy. Qed.
Lemma row_eq (v : list text) : v <> [] -> removelast v ++ [last v []] = v.
Proof. intros H. symmetry. now apply app_removelast_last. Qed.
Lemma joined_unbraced sep v : unbraced sep -> Forall numeral v -> unbraced (joined sep v).
Proof.
  intros U. induction 1 as [|x v Hx Hv IH]; [apply unbraced_nil|]. apply numeral_unbraced in Hx. destruct v; [easy|].
  change (joined sep (x :: t :: v)) with (x ++ sep ++ joined sep (t :: v)). now repeat apply unbraced_app.
Qed.
Lemma numeral_decZ z : numeral (decZ z).
Proof.
  split; [apply decZ_nonnil|]. intros c I J. cbn in J.
  destruct J as [<-|[<-|[<-|[<-|[<-|[<-|[]]]]]]]; revert I; apply decZ_notin; easy.
Qed.
Lemma numeral_num n : numeral (num n). Proof. apply numeral_decZ. Qed.

(** *** Reading a template before its fields are filled in *)
(** Like a reader, with words of pieces. *)
Record sreader := { sgot : list (list (list piece) * bool); sws : list (list piece); scur : list piece; son : bool; sslash : bool; swhere : mode }.
Definition sflush (r : sreader) : sreader :=
  if son r then {| sgot := sgot r; sws := sws r ++ [scur r]; scur := []; son := false; sslash := sslash r; swhere := swhere r |} else r.
Definition sline_ends (r : sreader) : sreader :=
  let r := sflush r in
  {| sgot := if sslash r || negb (match sws r with [] => true | _ => false end) then sgot r ++ [(sws r, sslash r)] else sgot r;
     sws := []; scur := []; son := false; sslash := false; swhere := Plain |}.
Definition stake (p : piece) (m : mode) (r : sreader) : sreader :=
  {| sgot := sgot r; sws := sws r; scur := scur r ++ [p]; son := true; sslash := sslash r; swhere := m |}.
Definition schar (r : sreader) (c : ascii) : sreader :=
  if eqc c nl then sline_ends r
  else match swhere r with
       | Comment => r
       | Quoted => stake (Lit c) (if eqc c quote then Plain else Quoted) r
       | Plain =>
           if eqc c sp then sflush r
           else if eqc c "/" then let r := sflush r in {| sgot := sgot r; sws := sws r; scur := []; son := false; sslash := true; swhere := Comment |}
           else stake (Lit c) (if eqc c quote then Quoted else Plain) r
       end.
(** The fields whose values are no numerals. *)
Definition is_name (n : text) : bool := existsb (eqt n) [str "library"; str "zsymam"; str "zsymam_thermal"; str "data.name"].
Definition sstep (r : sreader) (p : piece) : option sreader :=
  match p with
  | Lit c => Some (schar r c)
  | Field n =>
      match swhere r with
      | Plain => if is_name n then None else Some (stake p Plain r)
      | Quoted => if son r then Some (stake p Quoted r) else None
      | Comment => None
      end
  end.
Fixpoint srun (ps : list piece) (r : sreader) : option sreader :=
  match ps with [] => Some r | p :: l => match sstep r p with Some r => srun l r | None => None end end.
Definition sstart (g : list (list (list piece) * bool)) : sreader := {| sgot := g; sws := []; scur := []; son := false; sslash := false; swhere := Plain |}.

Definition value (e : locals) (p : piece) : text := match p with Lit c => [c] | Field n => match e n with Some v => v | None => [] end end.
Definition word_of (e : locals) (l : list piece) : text := concat (map (value e) l).
Definition card_of (e : locals) (c : list (list piece) * bool) : card := (map (word_of e) (fst c), snd c).
Definition conc (e : locals) (r : sreader) : reader :=
  {| got := map (card_of e) (sgot r); ws := map (word_of e) (sws r); cur := word_of e (scur r); on := son r; slash := sslash r; where_ := swhere r |}.
Lemma conc_flush e r : flush (conc e r) = conc e (sflush r).
Proof. unfold flush, sflush. cbn [on conc]. destruct (son r); [|easy]. unfold conc. cbn. now rewrite map_app. Qed.
Lemma conc_line_ends e r : line_ends (conc e r) = conc e (sline_ends r).
Proof.
  unfold line_ends, sline_ends. rewrite conc_flush. unfold conc at 1 2 3 4 5 6. cbn [got ws cur on slash where_].
  unfold conc. cbn. f_equal. destruct (sws (sflush r)); cbn; destruct (sslash (sflush r)); cbn; now rewrite ?map_app.
Qed.
Lemma conc_take e r c m : take c m (conc e r) = conc e (stake (Lit c) m r).
Proof. unfold take, stake, conc, word_of. cbn. now rewrite map_app, concat_app. Qed.
Lemma conc_char e r c : step (conc e r) c = conc e (schar r c).
Proof.
  unfold step, schar. rewrite conc_line_ends, conc_flush. cbn [where_ conc].
  destruct (eqc c nl); [easy|]. destruct (swhere r); rewrite ?conc_take; try easy.
  destruct (eqc c sp); [easy|]. destruct (eqc c "/"); easy.
Qed.
Lemma numeral_quotable v : numeral v -> quotable v.
Proof. intros [_ H]. split; intros I; apply (H _ I); cbn; tauto. Qed.
Lemma srun_run e ps : forall r r', srun ps r = Some r' ->
  (forall n, In (Field n) ps -> exists v, e n = Some v /\ if is_name n then quotable v else numeral v) ->
  exists x, fill e ps = Some x /\ run x (conc e r) = conc e r'.
Proof.
  induction ps as [|p ps IH]; intros r r' H B; cbn [srun] in H.
  - injection H as <-. now exists [].
  - destruct (sstep r p) as [r1|] eqn:S; [|discriminate].
    destruct (IH r1 r' H) as (x & F & R); [intros n I; apply B; now right|]. destruct p as [c|n]; cbn [sstep fill] in S |- *; rewrite F.
    + injection S as <-. exists (c :: x). split; [easy|]. cbn [run fold_left]. rewrite conc_char. exact R.
    + destruct (B n (or_introl eq_refl)) as (v & E & V). rewrite E. exists (v ++ x). split; [easy|]. rewrite run_app.
      assert (reads v (conc e r) = conc e (stake (Field n) (swhere r) r)) as RD.
      { unfold reads, stake, conc, word_of. cbn. rewrite map_app, concat_app. cbn. now rewrite E, app_nil_r. }
      destruct (swhere r) eqn:W; [| |discriminate].
      * destruct (is_name n); [discriminate|]. injection S as <-. rewrite (run_numeral v) by (exact V || exact W). now rewrite RD.
      * destruct (son r) eqn:O; [|discriminate]. injection S as <-.
        rewrite (run_quoted v); [now rewrite RD| |exact W|exact O]. destruct (is_name n); [easy|now apply numeral_quotable].
Qed.
(** The fields of a template. *)
Definition fields (ps : list piece) : list text := flat_map (fun p => match p with Field n => [n] | Lit _ => [] end) ps.
Definition fields_of (t : text) : list text := match parse None t with Some ps => fields ps | None => [] end.
Definition good (e : locals) (n : text) : Prop := exists v, e n = Some v /\ if is_name n then quotable v else numeral v.
(** What a template of whole lines says. *)
Definition says (t : text) : option (list (list (list piece) * bool)) :=
  match parse None t with
  | None => None
  | Some ps =>
      match srun ps (sstart []) with
      | Some {| sgot := g; sws := []; scur := []; son := false; sslash := false; swhere := Plain |} => Some g
      | _ => None
      end
  end.
Lemma says_whole e t g : says t = Some g -> Forall (good e) (fields_of t) -> exists x, format e t = Some x /\ whole x (map (card_of e) g).
Proof.
  unfold says, fields_of, format. destruct (parse None t) as [ps|]; [|discriminate].
  destruct (srun ps (sstart [])) as [r|] eqn:R; [|discriminate]. intros H F.
  destruct (srun_run e ps _ _ R) as (x & E & W).
  { intros n I. rewrite Forall_forall in F. apply F. unfold fields. apply in_flat_map. exists (Field n). split; [easy|now left]. }
  exists x. split; [easy|]. destruct r as [g0 w0 c0 o0 s0 m0]. destruct w0; [|discriminate]. destruct c0; [|discriminate].
  destruct o0; [discriminate|]. destruct s0; [discriminate|]. destruct m0; try discriminate. injection H as <-. exact W.
Qed.
(** Formatted text has no braces if the template has no doubled ones and no names. *)
Definition brace_free (t : text) : bool :=
  match parse None t with
  | None => false
  | Some ps => forallb (fun p => match p with Lit c => negb (eqc c "{") && negb (eqc c "}") | Field n => negb (is_name n) end) ps
  end.
Lemma format_brace_free e t x : brace_free t = true -> Forall (good e) (fields_of t) -> format e t = Some x -> unbraced x.
Proof.
  unfold brace_free, format, fields_of. destruct (parse None t) as [ps|]; [|discriminate]. revert x.
  induction ps as [|[c|n] ps IH]; cbn [forallb fields flat_map app fill]; intros x B F H.
  - injection H as <-. apply unbraced_nil.
  - apply andb_prop in B. destruct B as [B1 B2]. apply andb_prop in B1. destruct B1 as [B0 B1]. destruct (fill e ps); [|discriminate].
    injection H as <-. apply unbraced_cons; [now destruct (eqc c "{")|now destruct (eqc c "}")|now apply IH].
  - apply andb_prop in B. destruct B as [B1 B2]. inversion F as [|? ? G F']; subst. destruct G as (v & Ev & V). rewrite Ev in H.
    destruct (is_name n); [discriminate|]. destruct (fill e ps); [|discriminate]. injection H as <-.
    apply unbraced_app; [now apply numeral_unbraced|now apply IH].
Qed.

(** [t] formatted in [e] is a text of whole lines saying [cs]; the second form also
    has no braces. *)
Definition yields (e : locals) (t : text) (cs : list card) : Prop := exists x, format e t = Some x /\ whole x cs.
Definition yields2 (e : locals) (t : text) (cs : list card) : Prop := exists x, format e t = Some x /\ whole x cs /\ unbraced x.
Lemma yields2_1 e t cs : yields2 e t cs -> yields e t cs.
Proof. intros (x & A & B & _). now exists x. Qed.
Lemma yields_app e a b x y : yields e a x -> yields e b y -> yields e (a ++ b) (x ++ y).
Proof. intros (p & A & B) (q & C & D). exists (p ++ q). split; [now apply format_app|now apply whole_app]. Qed.
Lemma yields2_app e a b x y : yields2 e a x -> yields2 e b y -> yields2 e (a ++ b) (x ++ y).
Proof. intros (p & A & B & U) (q & C & D & V). exists (p ++ q). split; [now apply format_app|]. split; [now apply whole_app|now apply unbraced_app]. Qed.
Lemma yields_says e t g : says t = Some g -> Forall (good e) (fields_of t) -> yields e t (map (card_of e) g).
Proof. apply says_whole. Qed.
Lemma yields2_says e t g : says t = Some g -> brace_free t = true -> Forall (good e) (fields_of t) -> yields2 e t (map (card_of e) g).
Proof. intros H B F. destruct (says_whole e t g H F) as (x & E & W). exists x. split; [easy|]. split; [easy|]. now apply (format_brace_free e t). Qed.
Lemma yields2_repeat e t g l : yields2 e t g -> yields2 e (concat (repeat t (List.length l))) (flat_map (fun _ : text => g) l).
Proof. intros H. induction l as [|a l IH]; [now exists []|]. cbn. now apply yields2_app. Qed.
(** The lines made of several words. *)
Lemma yields_row e (b : bool) v : e (str "temps") = Some (joined [sp] v) -> v <> [] -> Forall numeral v ->
  yields2 e (str "{temps}" ++ (if b then str "/" else []) ++ [nl]) [(v, b)].
Proof.
  intros E N F. exists (joined [sp] v ++ (if b then str "/" else []) ++ [nl]). split; [|split].
  - apply format_app; [|destruct b; reflexivity]. change (format e (str "{temps}")) with (match e (str "temps"), Some [] with Some v, Some t => Some (v ++ t) | _, _ => None end).
    rewrite E. now rewrite app_nil_r.
  - unfold whole. rewrite run_app, run_row by easy. destruct b; unfold run, start; cbn; unfold line_ends, flush; cbn; rewrite row_eq by easy; [easy|now destruct v].
  - apply unbraced_app; [apply joined_unbraced; [now split; intros [?|[]]|easy]|]. destruct b; split; cbn; intuition discriminate.
Qed.
Lemma whole_column v : v <> [] -> Forall numeral v -> whole (joined (sp :: [nl]) v ++ str "/" ++ [nl]) (column v).
Proof.
  intros N F. unfold whole. rewrite run_app, run_column by easy. rewrite column_eq by easy. unfold run, start. cbn. unfold line_ends, flush. cbn. easy.
Qed.
Lemma yields_column e k v : fields_of (str "{" ++ str k ++ str "}/" ++ [nl]) = [str k] -> parse None (str "{" ++ str k ++ str "}/" ++ [nl]) = Some [Field (str k); Lit "/"; Lit nl] ->
  e (str k) = Some (joined (sp :: [nl]) v) -> v <> [] -> Forall numeral v ->
  yields2 e (str "{" ++ str k ++ str "}/" ++ [nl]) (column v).
Proof.
  intros _ P E N F. exists (joined (sp :: [nl]) v ++ str "/" ++ [nl]). split; [|split].
  - unfold format. rewrite P. cbn [fill option_map]. now rewrite E.
  - now apply whole_column.
  - apply unbraced_app; [apply joined_unbraced; [now split; intros [?|[?|[]]]|easy]|]. split; cbn; intuition discriminate.
Qed.
Lemma reformat_yields2 e e' t cs x : yields2 e t cs -> format e t = Some x -> format e' x = Some x.
Proof. intros (y & A & _ & U) B. rewrite A in B. injection B as <-. now apply format_unbraced. Qed.

(** *** The templates *)
Ltac keys := repeat match goal with H : ?e (str ?k) = Some ?v |- _ => let k' := eval vm_compute in (str k) in change (e k' = Some v) in H end.
Ltac goods := keys; match goal with |- Forall _ ?l => let l' := eval vm_compute in l in change l with l' end;
  repeat (constructor; [eexists; split; [eassumption|]; match goal with |- if ?b then _ else _ => let b' := eval vm_compute in b in change b with b' end; cbv iota; assumption|]); constructor.
Ltac same := unfold card_of, word_of, c0, c1, titled, quote; cbn [map fst snd concat value app]; keys;
  repeat match goal with H : ?e ?k = Some ?v |- _ => rewrite ?H; clear H end; cbn [app]; rewrite ?app_nil_r, <- ?app_assoc; reflexivity.
Ltac filled1 e t := let g := eval vm_compute in (says t) in
  match g with Some ?g => let E := fresh in assert (forall cs, cs = map (card_of e) g -> Forall (good e) (fields_of t) -> yields e t cs) as E
    by (intros cs -> ?; apply yields_says; [vm_compute; reflexivity|assumption]); apply E; [same|goods] end.
Ltac filled2 e t := let g := eval vm_compute in (says t) in
  match g with Some ?g => let E := fresh in assert (forall cs, cs = map (card_of e) g -> Forall (good e) (fields_of t) -> yields2 e t cs) as E
    by (intros cs -> ?; apply yields2_says; [vm_compute; reflexivity|vm_compute; reflexivity|assumption]); apply E; [same|goods] end.


(** What the variables set first hold. *)
Record globals (a : args) (e : locals) : Prop := {
  g_nendf : e (str "nendf") = Some (num 20);
  g_npendf : e (str "npendf") = Some (num 21);
  g_mat : e (str "mat") = Some (decZ (mat a));
  g_library : e (str "library") = Some (library (lib a));
  g_zsymam : e (str "zsymam") = Some (zsymam a);
  g_error : e (str "error") = Some (error a);
  g_num_temp : e (str "num_temp") = Some (num (List.length (temps_of a)));
  g_temps : e (str "temps") = Some (joined [sp] (map shown (temps_of a)));
  g_iwt : e (str "iwt_fluxweight") = Some (decZ (iwt_fluxweight a)) }.
Lemma library_quotable a : sensible a -> quotable (library (lib a)).
Proof.
  intros H. destruct (s_names a H) as [_ [Q1 Q2]]. revert Q1 Q2. destruct (lib a) as [[n v] r]. cbn [fst library]. intros Q1 Q2.
  destruct (numeral_quotable _ (numeral_decZ v)) as [A B]. destruct (numeral_quotable _ (numeral_decZ r)) as [C D].
  split; rewrite !in_app_iff; cbn; intuition discriminate.
Qed.
Lemma temps_shown a : sensible a -> map shown (temps_of a) <> [] /\ Forall numeral (map shown (temps_of a)).
Proof. intros H. destruct (s_temps a H) as [A B]. split; [now destruct (temps_of a)|]. now rewrite Forall_map. Qed.

Ltac knowing H G := pose proof (s_error _ H); destruct (s_names _ H); pose proof (library_quotable _ H); destruct (temps_shown _ H); destruct G.
Ltac goods ::= keys; match goal with |- Forall _ ?l => let l' := eval vm_compute in l in change l with l' end;
  repeat (constructor; [eexists; split; [eassumption|]; match goal with |- if ?b then _ else _ => let b' := eval vm_compute in b in change b with b' end; cbv iota;
     first [assumption | apply numeral_num | apply numeral_decZ]|]); constructor.
(** The text of lines [n] to [m] of a template. *)
Definition piece_of (n m : nat) (t : text) : text := concat (firstn (m - n) (skipn n (lines t))).

Lemma t_reconr a e : sensible a -> globals a e -> yields e T_RECONR (cards_of a (Reconr 21)).
Proof. intros H G. knowing H G. cbn [cards_of]. filled1 e T_RECONR. Qed.
Lemma t_heatr a e i o : globals a e -> e (str "nheatr_in") = Some (num i) -> e (str "nheatr") = Some (num o) -> yields e T_HEATR (cards_of a (Heatr i o)).
Proof. intros G I O. destruct G. cbn [cards_of]. filled1 e T_HEATR. Qed.
Lemma t_covr_lib a e i o : globals a e -> e (str "nerr") = Some (num i) -> e (str "covr_out") = Some (num o) -> yields2 e T_COVR_LIB (cards_of a (CovLib i o)).
Proof. intros G I O. destruct G. cbn [cards_of]. filled2 e T_COVR_LIB. Qed.
Lemma t_viewr a e i o : e (str "covr_plot_out") = Some (num i) -> e (str "viewr_plot_out") = Some (num o) -> yields2 e T_VIEWR (cards_of a (View i o)).
Proof. intros I O. cbn [cards_of]. filled2 e T_VIEWR. Qed.
Lemma numeral_two n : numeral (two_digits n).
Proof.
  unfold two_digits. destruct (n <? 10); [|apply numeral_num]. destruct (numeral_num n) as [A B]. split; [easy|].
  intros c [<-|I]; [cbn; intuition discriminate|now apply B].
Qed.
Lemma t_acer a e k i x d t : sensible a -> globals a e -> e (str "nacer_in") = Some (num i) -> e (str "nace") = Some (num x) -> e (str "ndir") = Some (num d) ->
  e (str "ext") = Some (two_digits k) -> e (str "temperature") = Some t -> numeral t -> yields e T_ACER (cards_of a (Acer k i x d t)).
Proof. intros H G I X D K T N. pose proof (numeral_two k). knowing H G. cbn [cards_of]. filled1 e T_ACER. Qed.
Lemma t_broadr a e o : sensible a -> globals a e -> e (str "nbroadr") = Some (num o) -> yields e T_BROADR (cards_of a (Broadr 21 o)).
Proof.
  intros H G O. knowing H G. cbn [cards_of].
  let x := eval vm_compute in (piece_of 0 5 T_BROADR) in let y := eval vm_compute in (piece_of 6 99 T_BROADR) in
    replace T_BROADR with (x ++ (str "{temps}" ++ [] ++ [nl]) ++ y) by (vm_compute; reflexivity);
    match goal with |- yields _ _ ?l => change l with (firstn 4 l ++ [nth 4 l (c0 [])] ++ skipn 5 l) end;
    apply yields_app; [filled1 e x|apply yields_app; [now apply yields2_1, (yields_row e false)|filled1 e y]].
Qed.
Lemma t_purr a e i o : sensible a -> globals a e -> e (str "npurr_in") = Some (num i) -> e (str "npurr") = Some (num o) -> yields e T_PURR (cards_of a (Purr i o)).
Proof.
  intros H G I O. knowing H G. cbn [cards_of].
  let x := eval vm_compute in (piece_of 0 4 T_PURR) in let y := eval vm_compute in (piece_of 5 99 T_PURR) in
    replace T_PURR with (x ++ (str "{temps}" ++ [] ++ [nl]) ++ y) by (vm_compute; reflexivity);
    match goal with |- yields _ _ ?l => change l with (firstn 3 l ++ [nth 3 l (c0 [])] ++ skipn 4 l) end;
    apply yields_app; [filled1 e x|apply yields_app; [now apply yields2_1, (yields_row e false)|filled1 e y]].
Qed.

(** The weight table. *)
Lemma whole_weights v : v <> [] -> Forall numeral v -> whole (flux_weight v ++ str "/" ++ [nl]) (table v) /\ unbraced (flux_weight v).
Proof.
  intros N F. set (n := num (List.length v / 2)). set (e := set "NP" n none).
  assert (e (str "NP") = Some n) as E by reflexivity. assert (numeral n) as Nn by apply numeral_num.
  set (h := str "0. 0. 0  0  1  " ++ n ++ str "  " ++ n ++ str "  2" ++ [nl]).
  assert (yields2 e (str "0. 0. 0  0  1  {NP}  {NP}  2" ++ [nl]) [c0 [w "0."; w "0."; w "0"; w "0"; w "1"; n; n; w "2"]]) as (x & X & W & U).
  { let t := eval vm_compute in (str "0. 0. 0  0  1  {NP}  {NP}  2" ++ [nl]) in change (str "0. 0. 0  0  1  {NP}  {NP}  2" ++ [nl]) with t; filled2 e t. }
  assert (format e (str "0. 0. 0  0  1  {NP}  {NP}  2" ++ [nl]) = Some h) as X'.
  { reflexivity. }
  rewrite X in X'. injection X' as ->.
  assert (flux_weight v = h ++ joined (sp :: [nl]) v) as ->.
  { unfold flux_weight, h. fold n. rewrite <- !app_assoc. reflexivity. }
  split.
  - rewrite <- app_assoc. change (table v) with ([c0 [w "0."; w "0."; w "0"; w "0"; w "1"; n; n; w "2"]] ++ column v).
    apply whole_app; [exact W|now apply whole_column].
  - apply unbraced_app; [easy|]. apply joined_unbraced; [now split; intros [?|[?|[]]]|easy].
Qed.
(** What the variables set for the covariances hold. *)
Record groups (a : args) (e : locals) : Prop := {
  h_bounds : bounds_of a <> [] /\ Forall numeral (bounds_of a);
  h_ngroups : e (str "cov_ngroups") = Some (decZ (Z.of_nat (List.length (bounds_of a)) - 1));
  h_weights : own_weights a = true -> e (str "user_flux_weight") = Some (flux_weight (weights_of a)) /\ weights_of a <> [] /\ Forall numeral (weights_of a) }.
Definition bounds_set (a : args) (e : locals) : Prop := e (str "cov_group_bounds") = Some (joined (sp :: [nl]) (bounds_of a)).
Lemma ngroups_num l : l <> [] -> decZ (Z.of_nat (@List.length text l) - 1) = num (List.length l - 1).
Proof. intros H. unfold num. f_equal. destruct l; [easy|]. cbn [List.length]. lia. Qed.
Lemma yields_weights a e : groups a e -> own_weights a = true -> yields2 e (str "{" ++ str "user_flux_weight" ++ str "}/" ++ [nl]) (table (weights_of a)).
Proof.
  intros G O. destruct (h_weights a e G O) as (E & N & F). destruct (whole_weights _ N F) as [W U].
  exists (flux_weight (weights_of a) ++ str "/" ++ [nl]). split; [|split]; [|easy|].
  - unfold format. let p := eval vm_compute in (parse None (str "{" ++ str "user_flux_weight" ++ str "}/" ++ [nl])) in
      replace (parse None (str "{" ++ str "user_flux_weight" ++ str "}/" ++ [nl])) with p by (vm_compute; reflexivity).
    cbn [fill option_map]. keys. now rewrite E.
  - apply unbraced_app; [easy|]. split; cbn; intuition discriminate.
Qed.
Lemma yields_bounds a e : groups a e -> bounds_set a e -> yields2 e (str "{" ++ str "cov_group_bounds" ++ str "}/" ++ [nl]) (column (bounds_of a)).
Proof. intros G B. destruct (h_bounds a e G) as [N F]. now apply yields_column. Qed.
Lemma xsec_tail e (ts : list temperature) :
  yields2 e (concat (repeat (str "3/" ++ [nl] ++ str "0/" ++ [nl]) (List.length ts)) ++ str "0/" ++ [nl])
          (flat_map (fun _ => [c1 [w "3"]; c1 [w "0"]]) (map shown ts) ++ [c1 [w "0"]]).
Proof.
  apply yields2_app.
  - rewrite <- (map_length shown). apply yields2_repeat. let t := eval vm_compute in (str "3/" ++ [nl] ++ str "0/" ++ [nl]) in change (str "3/" ++ [nl] ++ str "0/" ++ [nl]) with t; filled2 e t.
  - let t := eval vm_compute in (str "0/" ++ [nl]) in change (str "0/" ++ [nl]) with t; filled2 e t.
Qed.
Lemma t_xsec a e i o : sensible a -> globals a e -> groups a e -> bounds_set a e -> e (str "ngroupr_in") = Some (num i) -> e (str "ngroupr_out") = Some (num o) ->
  yields2 e (if own_weights a then T_GROUPR_USER (List.length (temps_of a)) else T_GROUPR_XSEC (List.length (temps_of a))) (cards_of a (Xsec i o)).
Proof.
  intros H G K B I O. knowing H G. pose proof (h_ngroups a e K) as NG. rewrite ngroups_num in NG by apply (h_bounds a e K).
  cbn [cards_of]. unfold structure. set (iwt := decZ (iwt_fluxweight a)) in *.
  match goal with |- yields2 _ _ ([?c_1; ?c_2; ?c_3; ?c_4; ?c_5; ?c_6] ++ (?c_7 :: ?r1) ++ ?r2 ++ ?r3 ++ ?r4) =>
    change ([c_1; c_2; c_3; c_4; c_5; c_6] ++ (c_7 :: r1) ++ r2 ++ r3 ++ r4) with ([c_1; c_2; c_3; c_4] ++ [c_5] ++ [c_6; c_7] ++ r1 ++ r2 ++ r3 ++ r4) end.
  destruct (own_weights a) eqn:OW.
  - unfold T_GROUPR_USER, table_if. rewrite OW.
    let x := eval vm_compute in (piece_of 0 5 T_GROUPR_USER_HEAD) in let y := eval vm_compute in (piece_of 6 8 T_GROUPR_USER_HEAD) in
    replace T_GROUPR_USER_HEAD with (x ++ (str "{temps}" ++ str "/" ++ [nl]) ++ y ++ (str "{" ++ str "cov_group_bounds" ++ str "}/" ++ [nl])
       ++ (str "{" ++ str "user_flux_weight" ++ str "}/" ++ [nl])) by (vm_compute; reflexivity);
    rewrite <- (app_assoc x), <- (app_assoc _ (y ++ _)), <- (app_assoc y), <- (app_assoc (str "{" ++ str "cov_group_bounds" ++ _));
    apply yields2_app; [|apply yields2_app; [|apply yields2_app; [|apply yields2_app; [|apply yields2_app]]]].
    + assert (iwt = str "1") as E1. { unfold iwt. unfold own_weights in OW. apply Z.eqb_eq in OW. now rewrite OW. } rewrite E1 in *.
      match goal with |- yields2 e ?x _ => filled2 e x end.
    + now apply (yields_row e true).
    + match goal with |- yields2 e ?x _ => filled2 e x end.
    + now apply yields_bounds.
    + now apply yields_weights.
    + apply xsec_tail.
  - unfold T_GROUPR_XSEC, table_if. rewrite OW, app_nil_l.
    let x := eval vm_compute in (piece_of 0 5 T_GROUPR_XSEC_HEAD) in let y := eval vm_compute in (piece_of 6 8 T_GROUPR_XSEC_HEAD) in
    replace T_GROUPR_XSEC_HEAD with (x ++ (str "{temps}" ++ str "/" ++ [nl]) ++ y ++ (str "{" ++ str "cov_group_bounds" ++ str "}/" ++ [nl])) by (vm_compute; reflexivity);
    rewrite <- (app_assoc x), <- (app_assoc _ (y ++ _)), <- (app_assoc y);
    apply yields2_app; [|apply yields2_app; [|apply yields2_app; [|apply yields2_app]]].
    + match goal with |- yields2 e ?x _ => filled2 e x end.
    + now apply (yields_row e true).
    + match goal with |- yields2 e ?x _ => filled2 e x end.
    + now apply yields_bounds.
    + apply xsec_tail.
Qed.
Lemma t_errorr33 a e g o t : sensible a -> globals a e -> groups a e -> bounds_set a e -> e (str "nerr_in") = Some (num g) -> e (str "nerr") = Some (num o) ->
  e (str "temperature") = Some t -> numeral t ->
  yields2 e T_ERRORR_33 (([c1 [w "errorr"]; c1 [w "20"; w "0"; num g; num o]; c1 [decZ (mat a); w "1"; decZ (iwt_fluxweight a)]; c1 [w "0"; t]; c1 [w "0"; w "33"]] ++ structure (bounds_of a))).
Proof.
  intros H G K B I O T N. knowing H G. pose proof (h_ngroups a e K) as NG. rewrite ngroups_num in NG by apply (h_bounds a e K).
  unfold structure.
  match goal with |- yields2 _ _ ([?c_1; ?c_2; ?c_3; ?c_4; ?c_5] ++ ?c_6 :: ?r1) =>
    change ([c_1; c_2; c_3; c_4; c_5] ++ c_6 :: r1) with ([c_1; c_2; c_3; c_4; c_5; c_6] ++ r1) end.
  let x := eval vm_compute in (piece_of 0 7 T_ERRORR_33) in
    replace T_ERRORR_33 with (x ++ (str "{" ++ str "cov_group_bounds" ++ str "}/" ++ [nl])) by (vm_compute; reflexivity).
  apply yields2_app; [|now apply yields_bounds]. match goal with |- yields2 e ?x _ => filled2 e x end.
Qed.
Definition T_ERRORR (mf : nat) : text := if mf =? 31 then T_ERRORR_31 else T_ERRORR_35.
Lemma t_errorr3x a e mf p g o t : mf = 31 \/ mf = 35 -> sensible a -> globals a e -> groups a e -> bounds_set a e ->
  e (str "nerr_in") = Some (num p) -> e (str "ngroupr_out") = Some (num g) -> e (str "nerr") = Some (num o) ->
  e (str "temperature") = Some t -> numeral t ->
  yields2 e (T_ERRORR mf) ([c1 [w "errorr"]; c1 [w "20"; num p; num g; num o]; c1 [decZ (mat a); w "1"; decZ (iwt_fluxweight a)]; c1 [w "1"; t]; c1 [w "0"; num mf; w "1"; w "1"; w "-1"]] ++ structure (bounds_of a)).
Proof.
  intros M H G K B P I O T N. knowing H G. pose proof (h_ngroups a e K) as NG. rewrite ngroups_num in NG by apply (h_bounds a e K).
  unfold structure.
  match goal with |- yields2 _ _ ([?c_1; ?c_2; ?c_3; ?c_4; ?c_5] ++ ?c_6 :: ?r1) =>
    change ([c_1; c_2; c_3; c_4; c_5] ++ c_6 :: r1) with ([c_1; c_2; c_3; c_4; c_5; c_6] ++ r1) end.
  destruct M as [-> | ->].
  - change (T_ERRORR 31) with T_ERRORR_31. let x := eval vm_compute in (piece_of 0 7 T_ERRORR_31) in
    replace T_ERRORR_31 with (x ++ (str "{" ++ str "cov_group_bounds" ++ str "}/" ++ [nl])) by (vm_compute; reflexivity).
    apply yields2_app; [|now apply yields_bounds]. match goal with |- yields2 e ?x _ => filled2 e x end.
  - change (T_ERRORR 35) with T_ERRORR_35. let x := eval vm_compute in (piece_of 0 7 T_ERRORR_35) in
    replace T_ERRORR_35 with (x ++ (str "{" ++ str "cov_group_bounds" ++ str "}/" ++ [nl])) by (vm_compute; reflexivity).
    apply yields2_app; [|now apply yields_bounds]. match goal with |- yields2 e ?x _ => filled2 e x end.
Qed.
(** The groupr call for nu and chi; its first part ends with a line left open. *)
Lemma t_fission a e i o : sensible a -> globals a e -> groups a e -> bounds_set a e -> e (str "ngroupr_in") = Some (num i) -> e (str "ngroupr_out") = Some (num o) ->
  yields2 e (T_GROUPR_PLOT (List.length (temps_of a))) (cards_of a (Fission i o)).
Proof.
  intros H G K B I O. knowing H G. pose proof (h_ngroups a e K) as NG. rewrite ngroups_num in NG by apply (h_bounds a e K).
  cbn [cards_of]. unfold structure, T_GROUPR_PLOT. set (part := [c1 [w "3"; w "452"; w "'nu'"]; _; _; _; _; _]).
  assert (exists y, T_GROUPR_PLOT_TEMP = nl :: y /\ yields2 e y part /\ yields2 e T_GROUPR_PLOT_TEMP part) as (y & Y & Z1 & Z2).
  { let y := eval vm_compute in (tl T_GROUPR_PLOT_TEMP) in exists y. split; [vm_compute; reflexivity|]. split; [match goal with |- yields2 e ?x _ => filled2 e x end|filled2 e T_GROUPR_PLOT_TEMP]. }
  match goal with |- yields2 _ _ ([?c_1; ?c_2; ?c_3; ?c_4; ?c_5; ?c_6] ++ (?c_7 :: ?r1) ++ ?r2) =>
    change ([c_1; c_2; c_3; c_4; c_5; c_6] ++ (c_7 :: r1) ++ r2) with ([c_1; c_2; c_3; c_4] ++ [c_5] ++ [c_6; c_7] ++ r1 ++ r2) end.
  destruct (temps_of a) as [|t0 ts] eqn:TS; [now destruct (s_temps a H)|]. cbn [map List.length repeat concat flat_map].
  rewrite Y at 1.
  replace (T_GROUPR_PLOT_HEAD ++ ((nl :: y) ++ concat (repeat T_GROUPR_PLOT_TEMP (List.length ts))) ++ str "0/" ++ [nl])
    with ((T_GROUPR_PLOT_HEAD ++ [nl]) ++ y ++ concat (repeat T_GROUPR_PLOT_TEMP (List.length ts)) ++ str "0/" ++ [nl])
    by (rewrite <- !app_assoc; reflexivity).
  let x := eval vm_compute in (piece_of 0 5 T_GROUPR_PLOT_HEAD) in let z := eval vm_compute in (piece_of 6 8 T_GROUPR_PLOT_HEAD) in
  replace (T_GROUPR_PLOT_HEAD ++ [nl]) with (x ++ (str "{temps}" ++ str "/" ++ [nl]) ++ z ++ (str "{" ++ str "cov_group_bounds" ++ str "}/" ++ [nl])) by (vm_compute; reflexivity);
  rewrite <- (app_assoc x), <- (app_assoc _ (z ++ _)), <- (app_assoc z).
  apply yields2_app; [|apply yields2_app; [|apply yields2_app; [|apply yields2_app]]].
  - cbn [List.length] in *. match goal with |- yields2 e ?x _ => filled2 e x end.
  - now apply (yields_row e true).
  - match goal with |- yields2 e ?x _ => filled2 e x end.
  - now apply yields_bounds.
  - rewrite <- app_assoc. apply yields2_app; [exact Z1|]. apply yields2_app.
    + rewrite <- (map_length shown). now apply yields2_repeat.
    + let t := eval vm_compute in (str "0/" ++ [nl]) in change (str "0/" ++ [nl]) with t; filled2 e t.
Qed.
(** The covr call for plots. *)
Definition plot_row (mt : Z) : text := str "{mat} " ++ decZ mt ++ str " {mat} " ++ decZ mt ++ str "/" ++ [nl].
Definition plot_head (n : text) : text := piece_of 0 1 T_COVR_PLOT_HEAD ++ piece_of 1 2 T_COVR_PLOT_HEAD ++ str "{nerr} 0 {covr_plot_out}/" ++ [nl] ++ str "1/" ++ [nl] ++ str "/" ++ [nl] ++ str "1 " ++ n ++ str "/" ++ [nl].
Lemma plot_template mts : T_COVR_PLOT mts = Some (plot_head (num (match mts with [] => 1 | _ => List.length mts end)) ++ match mts with [] => str "{mat}/" ++ [nl] | _ => concat (map plot_row mts) end).
Proof.
  unfold T_COVR_PLOT. set (n := num _).
  assert (format (set "n_mats" n none) T_COVR_PLOT_HEAD = Some (plot_head n)) as ->. { reflexivity. }
  assert (forall mt, format (set "mt" (decZ mt) none) (str "{{mat}} {mt} {{mat}} {mt}/" ++ [nl]) = Some (plot_row mt)) as R.
  { intros mt. reflexivity. }
  assert (forall l s, fold_left (fun s mt => match s, format (set "mt" (decZ mt) none) (str "{{mat}} {mt} {{mat}} {mt}/" ++ [nl]) with Some s, Some x => Some (s ++ x) | _, _ => None end)
     l (Some s) = Some (s ++ concat (map plot_row l))) as F.
  { induction l as [|x l IH]; intros s; [cbn; now rewrite app_nil_r|]. cbn [fold_left map concat]. rewrite R, IH. now rewrite app_assoc. }
  rewrite F. destruct mts; [|easy]. cbn [map concat]. now rewrite app_nil_r.
Qed.
Lemma yields2_again e e' t cs x : yields2 e t cs -> format e t = Some x -> yields2 e' x cs.
Proof. intros (y & A & W & U) B. rewrite A in B. injection B as <-. exists y. split; [now apply format_unbraced|easy]. Qed.
Lemma set_other e k v x : eqt x (str k) = false -> set k v e x = e x.
Proof. intros H. unfold set. now rewrite H. Qed.
Lemma t_plot_head e i o n : e (str "nerr") = Some (num i) -> e (str "covr_plot_out") = Some (num o) -> numeral n ->
  yields2 e (plot_head n) [c1 [w "covr"]; c1 [num i; w "0"; num o]; c1 [w "1"]; c1 []; c1 [w "1"; n]].
Proof.
  intros I O N. let x := eval vm_compute in (piece_of 0 1 T_COVR_PLOT_HEAD ++ piece_of 1 2 T_COVR_PLOT_HEAD ++ str "{nerr} 0 {covr_plot_out}/" ++ [nl] ++ str "1/" ++ [nl] ++ str "/" ++ [nl]) in
  change (plot_head n) with (x ++ (str "1 " ++ n ++ str "/" ++ [nl]));
  match goal with |- yields2 _ _ [?c_1; ?c_2; ?c_3; ?c_4; ?c_5] => change [c_1; c_2; c_3; c_4; c_5] with ([c_1; c_2; c_3; c_4] ++ [c_5]) end;
  apply yields2_app; [filled2 e x|].
  set (e1 := set "n" n none). assert (e1 (str "n") = Some n) as E by reflexivity.
  apply (yields2_again e1 e (str "1 {n}/" ++ [nl])); [|reflexivity].
  let t := eval vm_compute in (str "1 {n}/" ++ [nl]) in change (str "1 {n}/" ++ [nl]) with t; filled2 e1 t.
Qed.
Lemma t_plot_row a e mt : e (str "mat") = Some (decZ (mat a)) -> yields2 e (plot_row mt) [c1 [decZ (mat a); decZ mt; decZ (mat a); decZ mt]].
Proof.
  intros M. set (e1 := set "mt" (decZ mt) e). assert (e1 (str "mt") = Some (decZ mt)) as E by reflexivity.
  assert (e1 (str "mat") = Some (decZ (mat a))) as E'. { unfold e1. rewrite set_other by reflexivity. exact M. }
  assert (yields2 e1 (str "{mat} {mt} {mat} {mt}/" ++ [nl]) [c1 [decZ (mat a); decZ mt; decZ (mat a); decZ mt]]) as (x & X & W & U).
  { clearbody e1. let t := eval vm_compute in (str "{mat} {mt} {mat} {mt}/" ++ [nl]) in change (str "{mat} {mt} {mat} {mt}/" ++ [nl]) with t; filled2 e1 t. }
  exists x. split; [|easy]. rewrite <- X. clear X.
  assert (format e1 (str "{mat} {mt} {mat} {mt}/" ++ [nl]) = Some ((decZ (mat a) ++ str " ") ++ decZ mt ++ (str " " ++ decZ (mat a) ++ str " ") ++ decZ mt ++ str "/" ++ [nl])) as ->.
  { unfold format. let p := eval vm_compute in (parse None (str "{mat} {mt} {mat} {mt}/" ++ [nl])) in
      replace (parse None (str "{mat} {mt} {mat} {mt}/" ++ [nl])) with p by (vm_compute; reflexivity).
    clearbody e1. cbn [fill]. keys. rewrite !E, !E'. cbn [option_map]. rewrite <- !app_assoc. reflexivity. }
  unfold plot_row.
  assert (unbraced (decZ mt)) as V by apply numeral_unbraced, numeral_decZ.
  apply format_app. { cbn. keys. rewrite M. reflexivity. }
  apply format_app. { now apply format_unbraced. }
  apply format_app. { cbn. keys. rewrite M. reflexivity. }
  apply format_app. { now apply format_unbraced. }
  reflexivity.
Qed.
Lemma t_covr_plot a e i o mts : e (str "mat") = Some (decZ (mat a)) -> e (str "nerr") = Some (num i) -> e (str "covr_plot_out") = Some (num o) ->
  exists t, T_COVR_PLOT mts = Some t /\ yields2 e t (cards_of a (CovPlot i o mts)).
Proof.
  intros M I O. eexists. split; [apply plot_template|]. cbn [cards_of].
  destruct mts as [|m0 mts].
  - match goal with |- yields2 _ _ ([?c_1; ?c_2; ?c_3; ?c_4] ++ [?c_5; ?c_6]) => change ([c_1; c_2; c_3; c_4] ++ [c_5; c_6]) with ([c_1; c_2; c_3; c_4; c_5] ++ [c_6]) end.
    apply yields2_app; [apply t_plot_head; [easy|easy|apply (numeral_num 1)]|].
    let t := eval vm_compute in (str "{mat}/" ++ [nl]) in change (str "{mat}/" ++ [nl]) with t; filled2 e t.
  - match goal with |- yields2 _ _ ([?c_1; ?c_2; ?c_3; ?c_4] ++ ?c_5 :: ?r) => change ([c_1; c_2; c_3; c_4] ++ c_5 :: r) with ([c_1; c_2; c_3; c_4; c_5] ++ r) end.
    apply yields2_app; [apply t_plot_head; [easy|easy|apply numeral_num]|].
    generalize (m0 :: mts). intros l. induction l as [|m l IH]; [now exists []|]. cbn [map concat].
    match goal with |- yields2 _ _ (?c :: ?r) => change (c :: r) with ([c] ++ r) end. apply yields2_app; [now apply t_plot_row|exact IH].
Qed.
