(** What a run of the generator is for. *)
From Coq Require Import Reals ZArith NArith List Bool Arith Ascii String.
From Verif Require Import Num XNum Text Dec PyNum Boxer_Model Mat CovCorr_Model Store_Spec Name_Spec Gen_Model.
From Verif Require Store_Model Box_Model.
Import ListNotations.
Local Open Scope list_scope.

(** BOXER reads fort.20, writes fort.21 and nothing else; [box] is what it makes of a tape
    and a request. *)
Definition boxer_writes (box : file -> file -> file) (boxer : program) : Prop :=
  forall d q c d', boxer d q = Some (c, d') -> (forall n, n <> str "fort.21" -> look n d' = look n d) /\
    (c = 0%Z -> forall f, look (str "fort.20") d = Some f -> look (str "fort.21") d' = Some (box f q)).
(** The reactions wanted: those asked for if there are covariances (MF 33) for all of
    them; without options all that have covariances. *)
Definition wanted (o : options) (e : evaluation) (mts : list Z) : Prop :=
  (exists mt, In (33%Z, mt) (e_sections e)) /\
  ((o_mts o <> [] /\ mts = o_mts o /\ forall mt, In mt mts -> In (33%Z, mt) (e_sections e)) \/
   (o_mts o = [] /\ forall mt, In mt mts <-> In (33%Z, mt) (e_sections e))).
(** The unit the covariances of a reaction are written to: for a fissionable target those
    of nu-bar (452) and chi (1018) have their own. *)
Definition source (e : evaluation) (mts : list Z) (mt : Z) (n : nat) : Prop :=
  (In mt mts /\ n = 25%nat /\ (e_fissionable e = true -> mt <> 452%Z /\ mt <> 1018%Z)) \/
  (e_fissionable e = true /\ ~ In mt mts /\ mt = 452%Z /\ n = 32%nat) \/
  (e_fissionable e = true /\ ~ In mt mts /\ mt = 1018%Z /\ n = 36%nat).
(** Chi is asked for as fission. *)
Definition asked_for (mt q : Z) : Prop := (mt = 1018%Z /\ q = 18%Z) \/ (mt <> 1018%Z /\ q = mt).
Definition no_braces (t : text) : Prop := ~ In "{"%char t /\ ~ In "}"%char t.
(** The store for [n] groups. *)
Definition store_name (o : options) (e : evaluation) (n : nat) (f : text) : Prop :=
  match o_store o with
  | Some w => f = w ++ decN (N.of_nat n) ++ str "g.h5"
  | None => exists w, ((e_z e = 0%Z /\ w = str "n") \/ element (e_z e) w) /\ f = w ++ decZ (e_a e) ++ str "_" ++ decN (N.of_nat n) ++ str "g.h5"
  end.
(** A frame in one of the stores. *)
Definition frame_in (s : stores) (f k : text) : option Store_Model.frame :=
  match look f s with Some st => Store_Model.get k st | None => None end.
Definition entry (c : list (list Qc)) (i j : nat) : R := Store_Model.q2r (Store_Model.cell 0%Qc c i j).
(** Store [f] holds the matrix file [ls], cleaned as in C29. *)
Definition holds (s : stores) (f za : text) (mt : Z) (ls : file) : Prop :=
  exists b x sd cov c g, read_matrix ls = Data b x sd cov /\
    frame_in s f (Store_Model.corr_key za (decZ mt)) = Some (Store_Model.Corr c) /\ frame_in s f (Store_Model.dev_key za (decZ mt)) = Some (Store_Model.Dev g) /\
    clean_correlation (List.length x) c /\
    (forall i j, i < j -> j < List.length x -> exists r, Store_Model.cell Store_Model.ENaN c i j = Store_Model.Fn r /\
       cut_quotient (entry cov i j) (sqrt (Rabs (entry cov i i * entry cov j j))) r)%nat /\
    (0 < List.length x -> contiguous b g)%nat /\ List.length g = List.length x /\
    (forall i d, i < List.length x -> group_data (nth i x 0%Qc) (nth i sd 0%Qc) (nth i g d))%nat.
(** The keys of one reaction. *)
Definition keys_of (za : text) (mt : Z) (k : text) : Prop := k = Store_Model.corr_key za (decZ mt) \/ k = Store_Model.dev_key za (decZ mt).
(** Reactions a run may store. *)
Definition concerns (e : evaluation) (mt : Z) : Prop := In (33%Z, mt) (e_sections e) \/ (e_fissionable e = true /\ (mt = 452%Z \/ mt = 1018%Z)).
(** A matrix file that can be stored: complete and in order (see C29), or a report that
    BOXER found nothing, for a reaction with a name. *)
Definition storable (named : bool) (ls : file) : Prop :=
  (read_matrix ls = BoxrError /\ named = true) \/
  exists b x sd cov, read_matrix ls = Data b x sd cov /\ (2 <= List.length x)%nat /\ List.length b = S (List.length x) /\ List.length sd = List.length x /\ decreasing b.
(** Units of covariances. *)
Definition unit (e : evaluation) (n : nat) : Prop := n = 25%nat \/ (e_fissionable e = true /\ (n = 32%nat \/ n = 36%nat)).
(** Both programs do their work: NJOY writes its listing and all tapes, with data for
    every reaction to be stored. *)
Definition programs_work (box : file -> file -> file) (njoy boxer : program) (known : Z -> bool) (deck endf : file) (e : evaluation) (mts : list Z) : Prop :=
  (forall d q, look (str "fort.20") d <> None -> exists d', boxer d q = Some (0%Z, d')) /\
  forall d, look (str "tape20") d = Some endf -> exists d', njoy d deck = Some (0%Z, d') /\ look (str "output") d' <> None /\
    (forall n, unit e n -> look (str "tape" ++ decN (N.of_nat n)) d' <> None) /\
    forall mt n f q, source e mts mt n -> look (str "tape" ++ decN (N.of_nat n)) d' = Some f -> asked_for mt q -> storable (known mt) (box f (request (e_mat e) q)).
(** What BOXER is asked. *)
Definition boxer_request (l : list Z) : Box_Model.request :=
  {| Box_Model.ty := Z.to_nat (nth 0 l 0%Z); Box_Model.mat := nth 1 l 0%Z; Box_Model.mt := nth 2 l 0%Z; Box_Model.mat1 := nth 3 l 0%Z; Box_Model.mt1 := nth 4 l 0%Z |}.
