(** Observable content of the editor in the aliasing model. *)
From Verif Require Import Num AceEdit_Model AceHeap_Model.

(** Everything the editor can report: the contents of every array it holds. *)
Definition view (w : world) :
  list (Z * list Qc) * list (Z * list Qc) * option (list Qc) * option (list Qc) *
  list (list Qc) * list (list Qc) * list (Z * list (list Qc)) :=
  let e := ed w in
  let c := content w in
  (map (fun p => (fst p, c (snd p))) (cur_y e), map (fun p => (fst p, c (snd p))) (orig_y e),
   option_map c (cur_nu e), option_map c (orig_nu e),
   map c (cur_chi e), map c (orig_chi e),
   map (fun p => (fst p, map c (snd p))) (osigma e)).

(** Addresses the editor holds. *)
Definition held (e : refs) : list addr :=
  map snd (cur_y e) ++ map snd (orig_y e) ++
  match cur_nu e with Some a => [a] | None => [] end ++
  match orig_nu e with Some a => [a] | None => [] end ++
  cur_chi e ++ orig_chi e ++ concat (map snd (osigma e)).

(** A freshly opened editor: every array it holds exists. *)
Definition wf_world (w : world) : Prop := forall a, In a (held (ed w)) -> (a < length (mem_ w))%nat.

(** The history hands array [a] to set_sigma. *)
Definition gives (os : list hop) (a : addr) : Prop := exists mt, In (Set_ mt a) os.
