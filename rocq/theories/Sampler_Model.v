(** The sampling front end.  Source: /repo/ASAPy/XsecSampler.py:60-200 and
    336-387.  The random draw (CovManipulation.sample_with_corr) is an external
    function argument here; its own structure is modelled in SampleCorr_Model.v.
    Floats: exact rationals plus NaN and infinities. *)
From Verif Require Import XNum Text.
From Coq Require Import ZArith.
Local Open Scope list_scope.

(** A pandas DataFrame: column labels, and labelled rows of cells. *)
Record frame := mkFrame { cols : list nat; rows : list (nat * list xnum) }.

(** XsecSampler.py:194-195: [samples / mean], transposed, rows labelled 1..n.
    [samples] holds one list of group values per sample. *)
Definition rel_frame (samples : list (list xnum)) (mean : list xnum) : frame :=
  {| cols := seq 0 (length samples);
     rows := map (fun g => (S g, map (fun s => xdiv (nth g s NaN) (nth g mean NaN)) samples))
                 (seq 0 (length mean)) |}.

(** XsecSampler.py:198: [(sample_df < 0).sum() == 0] for the column at position [j]. *)
Definition col_ok (rs : list (nat * list xnum)) (j : nat) : bool :=
  forallb (fun r => negb (xneg (nth j (snd r) NaN))) rs.

(** Boolean column selection [df.loc[:, mask]]. *)
Fixpoint select {A} (mask : list bool) (l : list A) : list A :=
  match mask, l with
  | b :: m, x :: r => if b then x :: select m r else select m r
  | _, _ => []
  end.

(** XsecSampler.py:190-200 _sample_check; [dropna()] drops rows with a NaN. *)
Definition sample_check (samples : list (list xnum)) (mean : list xnum) (remove_neg : bool) : frame :=
  let df := rel_frame samples mean in
  if remove_neg then
    let mask := map (col_ok (rows df)) (seq 0 (length (cols df))) in
    {| cols := select mask (cols df);
       rows := filter (fun r => forallb (fun x => negb (xisnan x)) (snd r))
                 (map (fun r => (fst r, select mask (snd r))) (rows df)) |}
  else df.

(** Python [str.lower] on letters A-Z (other code points below 256 with case
    mappings play no role in the comparison with the five names). *)
Definition lower_char (c : ascii) : ascii :=
  let n := nat_of_ascii c in if (65 <=? n) && (n <=? 90) then ascii_of_nat (n + 32) else c.
Definition lower (s : text) : text := map lower_char s.

(** XsecSampler.py:143-171: which correlation (stored or identity) and which
    distribution a sampling type uses; [None] raises. *)
Inductive dist := Normal | LogNormal | Uniform.
Definition choose (st : text) : option (bool * dist) :=
  let s := lower st in
  if eqt s (str "normal") then Some (true, Normal)
  else if eqt s (str "lognormal") then Some (true, LogNormal)
  else if eqt s (str "uncorrelated") then Some (false, Normal)
  else if eqt s (str "uniform") then Some (true, Uniform)
  else if eqt s (str "loguncorrelated") then Some (false, LogNormal)
  else None.

Inductive serr := NotImplemented | BadSamples (made : nat) | ShapeError.
Inductive sresult (A : Type) := SOk (a : A) | SRaise (e : serr).
Arguments SOk {A}. Arguments SRaise {A}.

(** XsecSampler.py:180-181 [samples[samples < 0] = 0]. *)
Definition zero_neg (f : frame) : frame :=
  {| cols := cols f;
     rows := map (fun r => (fst r, map (fun x => if xneg x then Fin 0%Qc else x) (snd r))) (rows f) |}.

(** XsecSampler.py:114-188 sample.  [draw corr d n] stands for
    sample_with_corr with the stored ([true]) or identity correlation. *)
Definition sample (draw : bool -> dist -> nat -> list (list xnum)) (mean : list xnum)
    (st : text) (num : nat) (raise_bad remove_neg ret_rel neg0 : bool) : sresult frame :=
  match choose st with
  | None => SRaise NotImplemented
  | Some (c, d) =>
      let m := if ret_rel then mean else repeat (Fin 1%Qc) (length mean) in
      let f := sample_check (draw c d num) m remove_neg in
      let f := if neg0 then zero_neg f else f in
      let worked := length (cols f) in
      if (worked <? num) && raise_bad then SRaise (BadSamples worked)
      else SOk {| cols := seq 0 worked; rows := rows f |}
  end.

(** Transposed cells of a frame: one list per column. *)
Definition columns (f : frame) : list (list xnum) :=
  map (fun j => map (fun r => nth j (snd r) NaN) (rows f)) (seq 0 (length (cols f))).

(** XsecSampler.py:384: NaN cells take the full value. *)
Definition patch_nan (rel full : frame) : frame :=
  {| cols := cols rel;
     rows := map (fun p => (fst (fst p),
               map (fun xy => if xisnan (fst xy) then snd xy else fst xy) (combine (snd (fst p)) (snd (snd p)))))
               (combine (rows rel) (rows full)) |}.

(** XsecSampler.py:336-387 sample_xsec.  Dividing a table with fewer groups than
    the mean vector raises ValueError. *)
Definition sample_xsec (draw : bool -> dist -> nat -> list (list xnum)) (mean : list xnum)
    (st : text) (num : nat) (raise_bad remove_neg : bool) : sresult (frame * frame) :=
  match sample draw mean st num raise_bad remove_neg false false with
  | SRaise e => SRaise e
  | SOk full =>
      if negb (length (rows full) =? length mean) then SRaise ShapeError
      else SOk (patch_nan (sample_check (columns full) mean false) full, full)
  end.

(** ** Loading stored data, XsecSampler.py:60-95 (fill_corr_diag False, the only
    value used).  A table is the list of (e low, e high) per group, from group 1;
    the other columns are not touched. *)
Definition bounds := list (Qc * Qc).

Definition swap_bounds (b : bounds) : bounds := map (fun p => (snd p, fst p)) b.

(** Lines 90-94; label 1 is the first row, [None] = KeyError on an empty table. *)
Definition fix_bounds (b : bounds) : option bounds :=
  match b with
  | [] => None
  | p :: _ => Some (if qltb (snd p) (fst p) then swap_bounds b else b)
  end.

(** [max(np.diag(corr))], line 86; [None] = ValueError on an empty matrix. *)
Definition diag (m : list (list Qc)) : list Qc :=
  map (fun i => nth i (nth i m []) 0%Qc) (seq 0 (length m)).
Fixpoint lmax (l : list Qc) : option Qc :=
  match l with
  | [] => None
  | x :: r => match lmax r with None => Some x | Some m => Some (if qltb x m then m else x) end
  end.

(** Lines 82-94; a zero largest diagonal makes every entry NaN or infinite,
    represented by [None]. *)
Definition load (b : bounds) (corr : list (list Qc)) : option (bounds * list (list Qc)) :=
  match lmax (diag corr) with
  | None => None
  | Some m =>
      if qeqb m 0%Qc then None
      else match fix_bounds b with
           | None => None
           | Some b' => Some (b', map (map (fun x => (x / m)%Qc)) corr)
           end
  end.
