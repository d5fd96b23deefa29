(** Catalogues of data files. *)
From Verif Require Import Num Text Cli_Model Cli_Spec Path_Model Path_Spec Cat_Model.
Local Open Scope list_scope.

(** The last part of a path is a name, as it is for a file. *)
Definition names (p n : text) : Prop := plain_name n /\ (p = n \/ exists d, p = d ++ "/"%char :: n).
(** The folder a file is in. *)
Definition folder (cwd p : text) : list text := removelast (place cwd p).
(** The same file, seen from [cwd] and from [cwd']. *)
Definition same_file (cwd cwd' : text) (a b : entry) : Prop :=
  place cwd' (e_path b) = place cwd (e_path a) /\ e_type b = e_type a /\ e_mats b = concat (map words (e_mats a)).
Definition holds (name : text) (e : entry) : Prop := In name (e_mats e).
(** The first that holds a material. *)
Definition first_with (name : text) (l : list entry) (e : entry) : Prop :=
  exists l1 l2, l = l1 ++ e :: l2 /\ holds name e /\ forall e', In e' l1 -> ~ holds name e'.
(** A path that can have names put after it. *)
Definition proper_dir (d : text) : Prop := d <> [] /\ forall q, d <> q ++ ["/"%char].
Definition inside (d n : text) : text := d ++ "/"%char :: n.
