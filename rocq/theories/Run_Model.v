(** The sampling program: which reactions are sampled, what each process writes.
    Source: /repo/ASAPy/XsecSampler.py:871-936 (the part of the script that samples), with
    336-387 (sample_xsec), 721-804 (write_sampled_data).  The parts are Store_Model.v
    (covariance store), Sampler_Model.v (tables of factors), Samp_Model.v and Wr_Model.v
    (one file), Mpi_Model.v (processes).
    Simplifications: the job script (lines 836-869) and the plots are left out; the number
    of samples is not negative; a factor that is not finite counts as missing; the drawing
    of random values (with the repair of the correlation) is the argument [draw], which
    does not raise; the text of the csv files is the argument [csv]. *)
From Verif Require Import XNum Text Dec Chi_Model AceEdit_Model AceText_Model Sampler_Model Mpi_Model Samp_Model Wr_Model.
From Verif Require Store_Model.
From Coq Require Import ZArith NArith.
Local Open Scope list_scope.

(** Lines 809-825: the options used ([a_mts] is empty when -mts is not given). *)
Record args := mkArgs { a_mts : list Z; a_num : nat; a_over : Z; a_dist : text; a_plot_only : bool }.

(** Lines 881-884. *)
Definition samples_to_make (a : args) : Z := if Z.eqb (a_over a) (-1) then Z.of_nat (a_num a) else a_over a.
(** [str.zfill(3)] (of a number that is not negative) and line 875. *)
Definition zfill3 (t : text) : text := repeat "0"%char (3 - length t) ++ t.
Definition zaid_text (z m : Z) : text := decZ z ++ zfill3 (decZ m).
(** Lines 895-901; [None]: a key of the store is not as expected. *)
Definition chosen (a : args) (st : Store_Model.store) : option (list Z) :=
  match a_mts a with [] => Store_Model.stored_mts st | l => Some l end.
(** Lines 905-908. *)
Definition adjustable (t : AceEdit_Model.table) (ms : list Z) : list Z := filter (fun m => mem m (all_mts (open_editor t))) ms.

(** What is known of one reaction: number, stored groups, table of factors. *)
Record sampled_mt := mkSm { sm_mt : Z; sm_groups : list Store_Model.group; sm_table : frame }.

Section Program.
(** The values drawn for the groups and correlations loaded (lines 143-168). *)
Variable draw : list Store_Model.group -> list (list Store_Model.ext) -> bool -> dist -> nat -> list (list xnum).

(** Lines 919-922; [None]: an exception (nothing stored: KeyError). *)
Definition sample_one (a : args) (st : Store_Model.store) (zaid : text) (m : Z) : option sampled_mt :=
  match Store_Model.load st zaid (decZ m) with
  | None => None
  | Some (g, c) =>
      match sample_xsec (draw g c) (map Store_Model.xsec g) (a_dist a) (a_num a) false true with
      | SOk (rel, _) => Some (mkSm m g rel)
      | SRaise _ => None
      end
  end.
(** Lines 917-929. *)
Fixpoint sample_all (a : args) (st : Store_Model.store) (zaid : text) (ms : list Z) : option (list sampled_mt) :=
  match ms with
  | [] => Some []
  | m :: r => match sample_one a st zaid m with
              | None => None
              | Some x => match sample_all a st zaid r with Some l => Some (x :: l) | None => None end
              end
  end.

(** How the first part ends: a message or an exception on all processes, an exception on
    process 0 (the others wait), plots only, or data to write. *)
Inductive outcome := TooFew | BadKeys | NoMts | Aborted | PlotsOnly | Sampled (l : list sampled_mt).
(** Lines 872-931; [z], [m]: atomic and mass number of the table. *)
Definition prepare (a : args) (st : Store_Model.store) (t : AceEdit_Model.table) (z m : Z) : outcome :=
  if Z.ltb (samples_to_make a) (Z.of_nat (a_num a)) then TooFew
  else match chosen a st with
       | None => BadKeys
       | Some ms =>
           match adjustable t ms with
           | [] => NoMts
           | adj => match sample_all a st (zaid_text z m) adj with
                    | None => Aborted
                    | Some l => if a_plot_only a then PlotsOnly else Sampled l
                    end
           end
       end.
End Program.

(** [sample_dfs_rel[mt_idx][sample_number]], line 743: the factors of one sample by
    group; [None]: KeyError. *)
Fixpoint position (n : nat) (l : list nat) : option nat :=
  match l with [] => None | x :: r => if Nat.eqb x n then Some 0%nat else option_map S (position n r) end.
Definition column (f : frame) (n : N) : option (Z -> option Qc) :=
  match position (N.to_nat n) (cols f) with
  | None => None
  | Some j => Some (fun g => match find (fun r => Z.eqb (Z.of_nat (fst r)) g) (rows f) with
                             | Some r => match nth j (snd r) NaN with Fin q => Some q | _ => None end
                             | None => None
                             end)
  end.
(** Lines 742-748 for one sample. *)
Fixpoint requests (l : list sampled_mt) (n : N) : option (list request) :=
  match l with
  | [] => Some []
  | x :: r => match column (sm_table x) n, requests r n with
              | Some c, Some rs => Some (mkReq (sm_mt x) (map Store_Model.e_high (sm_groups x)) (map Store_Model.e_low (sm_groups x)) c :: rs)
              | _, _ => None
              end
  end.
(** Line 735: the numbers of the samples. *)
Definition sample_numbers (l : list sampled_mt) : list N :=
  match l with [] => [] | x :: _ => map N.of_nat (cols (sm_table x)) end.
(** Lines 739-792: the content of one file, in one piece. *)
Definition content (fmt : Qc -> text) (t : AceEdit_Model.table) (f : text) (l : list sampled_mt) (n : N) : option (list text) :=
  match requests l n with
  | None => None
  | Some rs => option_map (fun x => [x]) (sample_text fmt t rs f)
  end.
(** Lines 935-936: './' + symbol + mass number + '_'. *)
Definition prefix_of (symbol : text) (m : Z) : text := str "./" ++ symbol ++ decZ m ++ str "_".
(** Lines 933-936 on [size] processes: what each writes. *)
Definition write_programs (fmt : Qc -> text) (csv : sampled_mt -> list text) (t : AceEdit_Model.table) (f symbol : text) (m : Z) (size : nat) (l : list sampled_mt) : list (list op) :=
  programs (prefix_of symbol m) (content fmt t f l) (map (fun x => (Z.to_N (sm_mt x), csv x)) l) size (sample_numbers l).
(** The whole run: nothing is written unless data were sampled. *)
Definition run_programs (fmt : Qc -> text) (csv : sampled_mt -> list text) draw (a : args) (st : Store_Model.store) (t : AceEdit_Model.table) (f symbol : text) (z m : Z) (size : nat) : list (list op) :=
  match prepare draw a st t z m with
  | Sampled l => write_programs fmt csv t f symbol m size l
  | _ => repeat [] size
  end.
