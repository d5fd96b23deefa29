(** The cross sections of one sampled file: factors mapped on the grid of each sampled
    reaction, set and summed.
    Source: /repo/ASAPy/XsecSampler.py:739-763 (write_sampled_data); the parts are
    AceEdit_Model.v (editor) and MapGroups_Model.v (map_groups_to_continuous).
    Simplifications: as in these models; an array is multiplied by one of its length.
    Line 758 writes 1 for 0 in the array get_sigma returned: a private copy for cross
    sections, the table's own nu-bar for 452 (C06); there set_sigma replaces it at once
    and only the recorded original of 452 would differ, which nothing here reads. *)
From Verif Require Import Num Chi_Model AceEdit_Model MapGroups_Model.

(** What is loaded for one reaction (lines 743-748): number, upper and lower bounds of
    the groups, the column of the sample (label to factor). *)
Record request := mkReq { rq_mt : Z; rq_high : list Qc; rq_low : list Qc; rq_col : Z -> option Qc }.

(** [original_sigma[original_sigma == 0] = 1], line 758. *)
Definition no_zero (ys : list Qc) : list Qc := map (fun y => if qeqb y 0%Qc then 1%Qc else y) ys.

(** [map_groups_to_continuous(e, high, col, min_e=low.min()) * y], lines 754-755, 760;
    [None]: an exception. *)
Definition scale (r : request) (es ys : list Qc) : option (list Qc) :=
  match list_min (rq_low r) with
  | None => None
  | Some lo => match map_groups es (rq_high r) (rq_col r) None (Some lo) 1%Qc with
               | Ok fs => Some (map2 Qcmult fs ys)
               | Raise _ => None
               end
  end.

(** Lines 750-760: the values given to set_sigma. *)
Definition sampled (s : editor) (r : request) : option value :=
  if Z.eqb (rq_mt r) 1018 then
    match chi_energies s, get_sigma_chi s false with
    | Some es, Some ps => option_map VChi (all_some (map2 (fun p e => scale r e p) ps es))
    | _, _ => None
    end
  else
    match get_energy s (rq_mt r), get_sigma s (rq_mt r) None false with
    | Some es, Some ys => option_map VFlat (scale r es (no_zero ys))
    | _, _ => None
    end.

(** Lines 743-763: one reaction. *)
Definition sample_mt (s : editor) (r : request) : option editor :=
  match sampled s r with
  | None => None
  | Some v => let (s1, ok) := set_sigma s (rq_mt r) v in
              if ok then let (s2, ok2) := apply_sum_rules s1 in if ok2 then Some s2 else None else None
  end.
(** Lines 739-763: all reactions of a sample. *)
Fixpoint sample_mts (s : editor) (rs : list request) : option editor :=
  match rs with
  | [] => Some s
  | r :: rest => match sample_mt s r with Some s' => sample_mts s' rest | None => None end
  end.
Definition sample_file (t : table) (rs : list request) : option editor := sample_mts (open_editor t) rs.
