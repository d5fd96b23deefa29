(** Model of the temperature selection when an ACE file is opened.
    Source: /repo/ASAPy/AceIO.py:29-44 (AceEditor.__init__). *)
From Coq Require Import String Ascii List Bool.
Import ListNotations.
Local Open Scope string_scope.

(** The [temperature] argument: absent, a string, or a number given by its
    [str()] text and whether it is zero (AceIO.py:21, 30, 36). *)
Inductive request := ReqNone | ReqStr (s : string) | ReqNum (zero : bool) (text : string).

Inductive opened := Opened (temperature : string) | Rejected.

(** Python truth value of the argument ([if not temperature], AceIO.py:30). *)
Definition truthy (r : request) : bool :=
  match r with
  | ReqNone => false
  | ReqStr s => negb (String.eqb s "")
  | ReqNum zero _ => negb zero
  end.

Definition text_of (r : request) : string :=
  match r with ReqNone => "" | ReqStr s => s | ReqNum _ t => t end.

(** [s.endswith('K')], AceIO.py:37. *)
Fixpoint ends_with_K (s : string) : bool :=
  match s with
  | EmptyString => false
  | String c EmptyString => Ascii.eqb c "K"%char
  | String _ r => ends_with_K r
  end.

(** [list(temperature)]: the list of one-character strings, AceIO.py:41. *)
Fixpoint chars (s : string) : list string :=
  match s with EmptyString => [] | String c r => String c EmptyString :: chars r end.

(** AceIO.py:29-44.  [temps] is [self.table.temperatures]. *)
Definition open_temperature (temps : list string) (r : request) : opened :=
  if negb (truthy r) then
    match temps with
    | [] => Rejected            (* temperatures[0]: IndexError *)
    | [t] => Opened t
    | _ => Rejected             (* multiple temperatures *)
    end
  else
    let t := text_of r in
    let t := if ends_with_K t then t else t ++ "K" in
    if existsb (String.eqb t) (chars t) then Opened t else Rejected.
