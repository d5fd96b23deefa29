(** Proofs about temperature selection. *)
From Verif Require Import AceOpen_Model.
From Coq Require Import String Ascii List Bool Lia.
Import ListNotations.
Local Open Scope string_scope.

(** What the caller expects: the file has the (possibly "K"-completed) request. *)
Definition wanted (r : request) : string :=
  if ends_with_K (text_of r) then text_of r else text_of r ++ "K".

Definition finds_iff_present : Prop := forall temps r, truthy r = true ->
  (exists t, open_temperature temps r = Opened t) <-> In (wanted r) temps.

Lemma chars_length s t : In t (chars s) -> String.length t = 1.
Proof.
  induction s as [|c r IH]; cbn; [tauto|]. intros [<-|H]; [reflexivity|auto].
Qed.

Lemma explicit_accepts_iff temps r : truthy r = true ->
  (forall t, open_temperature temps r = Opened t <-> (t = "K" /\ wanted r = "K")).
Proof.
  intros Ht t. unfold open_temperature. rewrite Ht. cbn [negb]. fold (wanted r).
  destruct (existsb (String.eqb (wanted r)) (chars (wanted r))) eqn:E.
  - apply existsb_exists in E as (x & Hx & Ex). apply String.eqb_eq in Ex. subst x.
    apply chars_length in Hx.
    assert (HK : ends_with_K (wanted r) = true).
    { unfold wanted. destruct (ends_with_K (text_of r)) eqn:K; [exact K|].
      clear. induction (text_of r) as [|c s IH]; [reflexivity|].
      cbn [append]. destruct (s ++ "K") eqn:Q; [destruct s; discriminate|]. exact IH. }
    destruct (wanted r) as [|c [|c2 w]]; cbn in Hx; try lia.
    cbn in HK. apply Ascii.eqb_eq in HK. subst c. split; [intros [= <-]; auto|intros [-> _]; reflexivity].
  - split; [discriminate|]. intros [-> Hw]. rewrite Hw in E. discriminate.
Qed.

Lemma explicit_always_rejected temps r : truthy r = true -> wanted r <> "K" ->
  open_temperature temps r = Rejected.
Proof.
  intros Ht Hw. destruct (open_temperature temps r) as [t|] eqn:E; [|reflexivity].
  apply explicit_accepts_iff in E; [|exact Ht]. destruct E. contradiction.
Qed.

Lemma finds_iff_present_false : ~ finds_iff_present.
Proof.
  intros H. destruct (H ["294K"] (ReqStr "294K") eq_refl) as [_ H2].
  destruct H2 as [t Ht]; [now left|]. discriminate.
Qed.

Lemma default_iff temps : (exists t, open_temperature temps ReqNone = Opened t) <-> length temps = 1.
Proof.
  cbn. destruct temps as [|a [|b r]]; cbn; split; intros H; try lia; try (destruct H; discriminate).
  - now exists a.
Qed.

Lemma default_value t : open_temperature [t] ReqNone = Opened t.
Proof. reflexivity. Qed.
