(** Property theorems C09: temperature selection. *)
From Verif Require Import AceOpen_Model AceOpen_Proofs.
From Coq Require Import String Ascii List Bool.
Import ListNotations.
Local Open Scope string_scope.

(** Without a request: succeeds exactly for one temperature, and selects it. *)
Theorem C09_default_iff : forall temps,
  (exists t, open_temperature temps ReqNone = Opened t) <-> length temps = 1.
Proof. exact default_iff. Qed.
Print Assumptions C09_default_iff.

Theorem C09_default_value : forall t, open_temperature [t] ReqNone = Opened t.
Proof. exact default_value. Qed.
Print Assumptions C09_default_value.

(** "An explicit request is found iff the file has it" is false. *)
Theorem C09_finds_iff_present_refuted : ~ finds_iff_present.
Proof. exact finds_iff_present_false. Qed.
Print Assumptions C09_finds_iff_present_refuted.

(** Every explicit request other than the bare "K" is rejected, whatever the
    file contains. *)
Theorem C09_explicit_always_rejected : forall temps r,
  truthy r = true -> wanted r <> "K" -> open_temperature temps r = Rejected.
Proof. exact explicit_always_rejected. Qed.
Print Assumptions C09_explicit_always_rejected.

(** Exact characterisation of the explicit branch. *)
Theorem C09_explicit_accepts_iff : forall temps r, truthy r = true ->
  (forall t, open_temperature temps r = Opened t <-> (t = "K" /\ wanted r = "K")).
Proof. exact explicit_accepts_iff. Qed.
Print Assumptions C09_explicit_accepts_iff.

Example C09_hypotheses_met :
  truthy (ReqNum false "294.0") = true /\ wanted (ReqNum false "294.0") = "294.0K" /\
  truthy (ReqStr "294K") = true /\ In (wanted (ReqStr "294K")) ["294K"; "600K"].
Proof. repeat split. now left. Qed.
