(** Writing one sampled file: the arrays of the adjusted reactions are searched in the
    text of the evaluated file and replaced.
    Source: /repo/ASAPy/XsecSampler.py:765-792 (write_sampled_data).  The editor is
    AceEdit_Model.v, the text side AceText_Model.v, the sampled values Samp_Model.v.
    [fmt] stands for [format(v, '.11E')].
    Simplification: the table [t] and the text [f] come from one file, read twice by the
    program; here both are arguments and the statements relate them. *)
From Verif Require Import Num Text Chi_Model AceEdit_Model AceText_Model Samp_Model.
From Coq Require Import ZArith.
Local Open Scope list_scope.

(** [sorted(list(ae.adjusted_mts))], line 770. *)
Fixpoint insert (m : Z) (l : list Z) : list Z :=
  match l with
  | [] => [m]
  | x :: r => if Z.leb m x then m :: l else x :: insert m r
  end.
Definition sorted (l : list Z) : list Z := fold_right insert [] l.

(** Lines 772-775: how many occurrences are replaced. *)
Definition max_replaces (m : Z) : Z := if Z.eqb m 452 then 9999%Z else 1%Z.

(** [_base * 1e6], line 783. *)
Definition per_mev (l : list Qc) : list Qc := map (fun p => p * qz 1000000)%Qc l.

(** The arrays to look for and what replaces them, lines 777-788; [None]: the reaction
    cannot be read (an exception that is not a ValueError). *)
Definition pairs (t : table) (s : editor) (m : Z) : option (list (list Qc * list Qc)) :=
  if Z.eqb m 1018 then
    if mem 18 (all_mts s) then
      match chi t, chi (cur s) with
      | Some b, Some d => Some (combine (map (fun x => per_mev (dp x)) b) (map (fun x => per_mev (dp x)) d) ++
                                combine (map dc b) (map dc d))
      | _, _ => None
      end
    else None
  else
    match get_sigma (open_editor t) m None false, get_sigma s m None false with
    | Some b, Some d => Some [(b, d)]
    | _, _ => None
    end.

Section Write.
Variable fmt : Qc -> text.

(** The calls of [w.replace_array] for one reaction.  [false]: ValueError, the array was
    not found, the arrays after it are left as they are; what was replaced before stays.
    [None]: arrays of different lengths, an Exception that nothing catches. *)
Fixpoint replace_pairs (w : ace) (ps : list (list Qc * list Qc)) (count : Z) : option (ace * bool) :=
  match ps with
  | [] => Some (w, true)
  | (b, d) :: r => match replace_array fmt w b d count with
                   | LengthMismatch => None
                   | NotFound => Some (w, false)
                   | Done w' => replace_pairs w' r count
                   end
  end.

(** Lines 770-790: the loop over the adjusted reactions; [except ValueError] prints a
    message and goes on.  The replacements of a spectrum count 1 each. *)
Fixpoint write_mts (t : table) (s : editor) (w : ace) (ms : list Z) : option ace :=
  match ms with
  | [] => Some w
  | m :: r => match pairs t s m with
              | None => None
              | Some ps => match replace_pairs w ps (max_replaces m) with
                           | None => None
                           | Some (w', _) => write_mts t s w' r
                           end
              end
  end.

(** Lines 765-792: the content of the file written for an edited table. *)
Definition write_one (t : table) (s : editor) (f : text) : option text :=
  match read_ace f with
  | None => None
  | Some w => option_map write_ace (write_mts t s w (sorted (adjusted s)))
  end.

(** Lines 739-792: the content of a sampled file. *)
Definition sample_text (t : table) (rs : list request) (f : text) : option text :=
  match sample_file t rs with
  | None => None
  | Some s => write_one t s f
  end.
End Write.
