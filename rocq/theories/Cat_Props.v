(** C90: catalogues of data files. *)
From Verif Require Import Num Text Cli_Model Cli_Spec Path_Model Path_Spec Path_Proofs Cat_Model Cat_Spec Cat_Proofs.
Local Open Scope nat_scope.
Local Open Scope list_scope.

(** Registering a file adds its path, kind and materials at the end: what was found before
    is found as before, and other materials are found in it. *)
Theorem C90_registered : forall filename kind groups l, exists l', register_file filename (Some (Some (str "data_" ++ kind), groups)) l = Some l' /\ l' = l ++ [mkEntry filename kind groups] /\
  forall name, (forall e, get_by_material name l = Some e -> get_by_material name l' = Some e) /\ (get_by_material name l = None -> In name groups -> get_by_material name l' = Some (mkEntry filename kind groups)).
Proof.
  intros filename kind groups l. exists (l ++ [mkEntry filename kind groups]). split; [reflexivity|]. split; [reflexivity|]. intros name. split.
  - intros e E. apply get_iff in E as (l1 & l2 & -> & H & N). apply get_iff. exists l1, (l2 ++ [mkEntry filename kind groups]). split; [now rewrite <- app_assoc|]. split; [exact H|exact N].
  - intros E G. rewrite get_none in E. apply get_iff. exists l, []. split; [reflexivity|]. split; [exact G|exact E].
Qed.
Print Assumptions C90_registered.
(** The first entry that holds a material is found, and nothing if there is none. *)
Theorem C90_found : forall name l, (forall e, get_by_material name l = Some e <-> first_with name l e) /\ (get_by_material name l = None <-> forall e, In e l -> ~ holds name e).
Proof. intros name l. split; [intros e; apply get_iff|apply get_none]. Qed.
Print Assumptions C90_found.
(** A catalogue can be exported if every entry has a path. *)
Theorem C90_exported : forall cwd path l, (exists x, export_to_xml cwd path l = Some x) <-> forall e, In e l -> e_path e <> [].
Proof. exact export_iff. Qed.
Print Assumptions C90_exported.
(** Read from the same file, however it is named and wherever one is then, it has the same
    files in the same order. *)
Theorem C90_round_trip : forall cwd cwd' path path' n n' l x, absolute cwd -> names path n -> names path' n' -> place cwd' path' = place cwd path -> export_to_xml cwd path l = Some x ->
  Forall2 (same_file cwd cwd') l (from_xml path' x).
Proof.
  intros cwd cwd' path path' n n' l x A N N' P E. apply isabs_abs in A. apply (read_back cwd cwd' path path' l x A E). intros _. rewrite (proj1 (folder_ok cwd' path' n' N')), (proj1 (folder_ok cwd path n N)). unfold folder. now rewrite P.
Qed.
Print Assumptions C90_round_trip.
(** If materials have no white space in their names, each is found in the same file as
    before. *)
Theorem C90_materials : forall cwd cwd' path path' n n' l x name, absolute cwd -> names path n -> names path' n' -> place cwd' path' = place cwd path -> export_to_xml cwd path l = Some x ->
  (forall e m, In e l -> In m (e_mats e) -> word m) ->
  match get_by_material name l, get_by_material name (from_xml path' x) with
  | Some a, Some b => place cwd' (e_path b) = place cwd (e_path a) /\ e_type b = e_type a /\ e_mats b = e_mats a
  | None, None => True
  | _, _ => False
  end.
Proof.
  intros cwd cwd' path path' n n' l x name A N N' P E W. pose proof (C90_round_trip cwd cwd' path path' n n' l x A N N' P E) as F. clear - F W. unfold get_by_material. induction F as [|a b l m (S1 & S2 & S3) F IH]; [exact I|]. cbn [find].
  rewrite words_all in S3 by (intros w I0; apply (W a); [now left|exact I0]). rewrite S3. destruct (existsb (eqt name) (e_mats a)); [auto|]. apply IH. intros e w I0. apply (W e). now right.
Qed.
Print Assumptions C90_materials.
(** Not true: materials come back as they were.  Names with white space do not. *)
Theorem C90_words_refuted : forall cwd cwd' a b m, same_file cwd cwd' a b -> In m (e_mats a) -> ~ word m -> e_mats b <> e_mats a.
Proof.
  intros cwd cwd' a b m (_ & _ & E) I0 W X. rewrite X in E. apply W. rewrite E in I0. apply in_concat in I0 as (ws & I1 & I2). apply in_map_iff in I1 as (s & <- & _). now apply (words_word s).
Qed.
Print Assumptions C90_words_refuted.
(** If the catalogue lies with its files, the folder can be moved or renamed: the paths
    are in the folder the catalogue is read from. *)
Theorem C90_moved : forall cwd d d' c c' ns l, absolute cwd -> proper_dir d -> proper_dir d' -> plain_name c -> plain_name c' -> ns <> [] -> Forall plain_name ns -> map e_path l = map (inside d) ns ->
  exists x, export_to_xml cwd (inside d c) l = Some x /\ x_dir x = None /\ map e_path (from_xml (inside d' c') x) = map (inside d') ns.
Proof.
  intros cwd d d' c c' ns l A D D' C C' N F E. apply isabs_abs in A. assert (Fc : Forall clean ns) by (eapply Forall_impl; [|exact F]; apply plain_clean).
  pose proof (common_dir_inside d l ns D N Fc E) as Cd. unfold export_to_xml. rewrite Cd, (dirname_inside d c D (proj2 (plain_clean c C))), (relpath_same cwd d A (proj1 D)).
  assert (X : exists es, elements cwd d l = Some es /\ map (fun e => snd (fst e)) es = ns).
  { clear Cd N Fc. revert ns F E. induction l as [|e l IH]; intros [|n ns] F E; try discriminate; [exists []; split; reflexivity|]. cbn [map] in E. assert (E1 : e_path e = inside d n) by congruence. assert (E2 : map e_path l = map (inside d) ns) by congruence. inversion F as [|? ? Fn F']; subst.
    destruct (IH ns F' E2) as (es & Es & M). cbn [elements]. rewrite E1, (relpath_child cwd (inside d n) d n A (proj1 (proper_inside d n Fn)) (place_inside cwd d n D Fn)), Es. eexists. split; [reflexivity|]. cbn. now rewrite M. }
  destruct X as (es & -> & M). exists (mkXml None es). split; [reflexivity|]. split; [reflexivity|]. unfold from_xml. cbn [x_dir x_libs]. rewrite (dirname_inside d' c' D' (proj2 (plain_clean c' C'))).
  rewrite map_map. clear E. revert ns F N Fc M. induction es as [|[[m p] t] es IH]; intros ns F N Fc M; [cbn in M; now rewrite <- M|]. cbn [map] in *. destruct ns as [|n ns]; [discriminate|]. inversion F as [|? ? Fn F']; subst. cbn [snd fst e_path] in *. assert (p = n) as -> by congruence. assert (M' : map (fun e : text * text * text => snd (fst e)) es = ns) by congruence. cbn [map]. f_equal.
  - unfold join_path, inside. rewrite (clean_rel n (plain_clean n Fn)), (proper_end d' D'). reflexivity.
  - destruct ns as [|n' ns]; [destruct es; [reflexivity|discriminate]|]. apply IH; [exact F'|discriminate| |exact M']. now inversion Fc.
Qed.
Print Assumptions C90_moved.
(** If it does not, the catalogue can be moved but not the files: wherever it is read
    from, the files are where they were. *)
Theorem C90_fixed : forall cwd cwd' path path' l x, absolute cwd -> export_to_xml cwd path l = Some x -> x_dir x <> None ->
  Forall2 (same_file cwd cwd') l (from_xml path' x) /\ forall e, In e (from_xml path' x) -> absolute (e_path e).
Proof.
  intros cwd cwd' path path' l x A E D. apply isabs_abs in A. split; [apply (read_back cwd cwd' path path' l x A E); intros X; contradiction|].
  destruct (export_inv _ _ _ _ A E) as ([[X _]|[X _]] & F); [contradiction|]. unfold from_xml. rewrite X. intros e I0. apply in_map_iff in I0 as ([[m p] t] & <- & It). cbn [e_path].
  assert (R : isabs p = false). { clear - A F It. revert F It. generalize (common_dir l). intros dd F It. induction F as [|a b l es (q & -> & R) F IH]; [destruct It|]. destruct It as [Eq|It]; [|now apply IH]. assert (q = p) as -> by congruence. now apply (relpath_ok _ _ _ _ A R). }
  destruct (abspath_shape cwd (common_dir l) A) as (n & Hn & Es & _). unfold join_path. rewrite R, Es. destruct Hn as [-> | ->]; cbn [repeat app]; destruct (ends_slash _); eexists; reflexivity.
Qed.
Print Assumptions C90_fixed.
(** Not true: a folder with a catalogue and a subfolder of files can be moved.  The old
    places are looked at. *)
Theorem C90_subfolder_refuted : forall cwd cwd' d s c path' ns l, absolute cwd -> proper_dir d -> plain_name s -> plain_name c -> ns <> [] -> Forall plain_name ns -> map e_path l = map (inside (inside d s)) ns ->
  exists x, export_to_xml cwd (inside d c) l = Some x /\ map (fun e => place cwd' (e_path e)) (from_xml path' x) = map (fun n => place cwd d ++ [s; n]) ns.
Proof.
  intros cwd cwd' d s c path' ns l A D Ps C N F E. assert (Fc : Forall clean ns) by (eapply Forall_impl; [|exact F]; apply plain_clean). pose proof (proper_inside d s Ps) as Ds. pose proof (common_dir_inside (inside d s) l ns Ds N Fc E) as Cd.
  destruct (proj2 (export_iff cwd (inside d c) l)) as (x & Ex). { intros e I0 X. apply (in_map e_path) in I0. rewrite E, X in I0. apply in_map_iff in I0 as (n & Y & _). destruct (inside d s); discriminate. }
  exists x. split; [exact Ex|]. assert (Dx : x_dir x <> None).
  { destruct (export_inv _ _ _ _ (proj2 (isabs_abs cwd) A) Ex) as ([[_ X]|[X _]] & _); [|congruence]. rewrite Cd, (dirname_inside d c D (proj2 (plain_clean c C))), (place_inside cwd d s D Ps) in X. exfalso. apply (f_equal (@List.length text)) in X. rewrite app_length in X. cbn in X. lia. }
  destruct (C90_fixed cwd cwd' _ path' l x A Ex Dx) as (G & _). clear Ex Cd Dx N Fc. revert ns F E. induction G as [|a b l m (S1 & _) G IH]; intros [|n ns] F E; try discriminate; [reflexivity|]. cbn [map] in *. inversion F as [|? ? Fn F']; subst. f_equal; [|apply IH; [exact F'|congruence]].
  rewrite S1. replace (e_path a) with (inside (inside d s) n) by congruence. rewrite (place_inside cwd (inside d s) n Ds Fn), (place_inside cwd d s D Ps), <- app_assoc. reflexivity.
Qed.
Print Assumptions C90_subfolder_refuted.
(** Not true: what is read equals what was written.  Relative paths become absolute ones. *)
Theorem C90_equal_refuted : forall cwd path path' l x e, absolute cwd -> export_to_xml cwd path l = Some x -> x_dir x <> None -> In e l -> ~ absolute (e_path e) -> from_xml path' x <> l.
Proof. intros cwd path path' l x e A E D I0 R X. apply R. apply (C90_fixed cwd cwd path path' l x A E D). now rewrite X. Qed.
Print Assumptions C90_equal_refuted.

(** ** Cases *)
Definition ca_cwd : text := str "/home/me".
Definition ca_l : list entry := [mkEntry (str "lib/U235.h5") (str "neutron") [str "U235"]; mkEntry (str "lib/U238.h5") (str "neutron") [str "U238"]; mkEntry (str "lib/graphite.h5") (str "thermal") [str "c_Graphite"; str "C 12"]].
Lemma ca_plain n : n <> "."%string -> n <> ".."%string -> n <> ""%string -> existsb (eqc slash) (str n) = false -> plain_name (str n).
Proof.
  intros A B C D. assert (X : forall s, str n = str s -> n = s) by (intros s E; rewrite <- (string_of_list_ascii_of_string n), <- (string_of_list_ascii_of_string s); unfold str in E; now rewrite E).
  split; [intros E; now apply C, X|]. split; [|split; intros E; [now apply A, X|now apply B, X]]. intros I0. assert (existsb (eqc slash) (str n) = true) by (apply existsb_exists; exists slash; split; [exact I0|reflexivity]). congruence.
Qed.
Definition ca_shown (path : text) (cwd path' : text) : option (option text * list text * list (list text)) :=
  option_map (fun x => (x_dir x, map e_path (from_xml path' x), map (fun e => place cwd (e_path e)) (from_xml path' x))) (export_to_xml ca_cwd path ca_l).
(** In the folder, above it and beside it. *)
Example C90_hypotheses_met : absolute ca_cwd /\ names (str "lib/all.xml") (str "all.xml") /\ names (str "../me/lib/all.xml") (str "all.xml") /\ place (str "/home/you") (str "../me/lib/all.xml") = place ca_cwd (str "lib/all.xml") /\
  proper_dir (str "lib") /\ plain_name (str "U235.h5") /\ map e_path ca_l = map (inside (str "lib")) [str "U235.h5"; str "U238.h5"; str "graphite.h5"] /\
  ca_shown (str "lib/all.xml") (str "/") (str "/data/old/all.xml") = Some (None, [str "/data/old/U235.h5"; str "/data/old/U238.h5"; str "/data/old/graphite.h5"], [[str "data"; str "old"; str "U235.h5"]; [str "data"; str "old"; str "U238.h5"]; [str "data"; str "old"; str "graphite.h5"]]) /\
  option_map (fun r => fst (fst r)) (ca_shown (str "all.xml") (str "/") (str "/data/all.xml")) = Some (Some (str "/home/me/lib")) /\ option_map (fun r => fst (fst r)) (ca_shown (str "lib/../../all.xml") (str "/") (str "/data/all.xml")) = Some (Some (str "/home/me/lib")) /\
  ~ absolute (str "lib/U235.h5") /\ ~ word (str "C 12") /\ get_by_material (str "U238") ca_l = Some (mkEntry (str "lib/U238.h5") (str "neutron") [str "U238"]) /\
  relpath ca_cwd (str "/data/x.h5") (str "lib/sub") = Some (str "../../../../data/x.h5").
Proof.
  split; [eexists; reflexivity|]. split; [split; [apply ca_plain; (discriminate || reflexivity)|right; exists (str "lib"); reflexivity]|]. split; [split; [apply ca_plain; (discriminate || reflexivity)|right; exists (str "../me/lib"); reflexivity]|].
  split; [vm_compute; reflexivity|]. split; [split; [discriminate|]; intros q E; apply (f_equal (@rev ascii)) in E; rewrite rev_app_distr in E; discriminate|]. split; [apply ca_plain; (discriminate || reflexivity)|]. split; [reflexivity|]. split; [vm_compute; reflexivity|]. split; [vm_compute; reflexivity|]. split; [vm_compute; reflexivity|].
  split; [intros [r E]; discriminate|]. split; [|split; vm_compute; reflexivity]. intros [_ H]. discriminate (H sp). right. now left.
Qed.
