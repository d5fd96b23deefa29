(** Aliasing model of the ACE editor: numpy arrays live in a heap, the editor
    and its caller hold addresses.  Source: /repo/ASAPy/AceIO.py:84-310.
    Values are computed in AceEdit_Model.v; here only sharing matters. *)
From Verif Require Import Num AceEdit_Model.

Definition addr := nat.
Definition heap := list (list Qc).

(** The references the editor object holds (AceIO.py:25-55): the [y] array of
    every reaction of [table] and [original_table], the nu-bar array, the pdf
    arrays of the prompt spectrum, and the arrays stored in [original_sigma]. *)
Record refs := mkRefs {
  cur_y : list (Z * addr);  orig_y : list (Z * addr);
  cur_nu : option addr;     orig_nu : option addr;
  cur_chi : list addr;      orig_chi : list addr;
  osigma : list (Z * list addr) }.

Record world := mkWorld { mem_ : heap; ed : refs }.

(** A new numpy array. *)
Definition alloc (w : world) (c : list Qc) : world * addr :=
  ({| mem_ := mem_ w ++ [c]; ed := ed w |}, length (mem_ w)).

Definition content (w : world) (a : addr) : list Qc := nth a (mem_ w) [].

(** [arr[i] = v] by whoever holds the array. *)
Fixpoint upd_nth {A} (i : nat) (v : A) (l : list A) : list A :=
  match l, i with
  | [], _ => []
  | _ :: r, O => v :: r
  | x :: r, S j => x :: upd_nth j v r
  end.
Definition write (w : world) (a : addr) (i : nat) (v : Qc) : world :=
  {| mem_ := upd_nth a (upd_nth i v (content w a)) (mem_ w); ed := ed w |}.

(** get_sigma, AceIO.py:243-280.  Ordinary MT: [copy.deepcopy(rx.y)] or
    [copy.deepcopy(rx(at_energies))], a new array holding [f] of the stored one
    ([f] is the identity or the interpolation); MT=452 returns the table's own
    array (lines 263, 221-230), MT=1018 the table's own pdf arrays (lines 265,
    118-124).  [None] = raises. *)
Definition get_sigma_h (w : world) (mt : Z) (unadj : bool) (f : list Qc -> list Qc)
  : world * option (list addr) :=
  if Z.eqb mt 452 then
    (w, option_map (fun a => [a]) (if unadj then orig_nu (ed w) else cur_nu (ed w)))
  else if Z.eqb mt 1018 then
    (w, Some (if unadj then orig_chi (ed w) else cur_chi (ed w)))
  else match lookup mt (if unadj then orig_y (ed w) else cur_y (ed w)) with
       | None => (w, None)
       | Some a => let (w', b) := alloc w (f (content w a)) in (w', Some [b])
       end.

(** Recording the original, AceIO.py:299-301: [self.get_sigma(mt).copy()].  For
    a flat array this is one more new array; for MT=1018 the list is copied but
    its arrays are shared. *)
Definition record_h (w : world) (mt : Z) : world :=
  match lookup mt (osigma (ed w)) with
  | Some _ => w
  | None =>
      if Z.eqb mt 1018 then
        {| mem_ := mem_ w;
           ed := {| cur_y := cur_y (ed w); orig_y := orig_y (ed w); cur_nu := cur_nu (ed w);
                    orig_nu := orig_nu (ed w); cur_chi := cur_chi (ed w); orig_chi := orig_chi (ed w);
                    osigma := osigma (ed w) ++ [(mt, cur_chi (ed w))] |} |}
      else
        let src := if Z.eqb mt 452 then cur_nu (ed w) else lookup mt (cur_y (ed w)) in
        match src with
        | None => w
        | Some a =>
            let (w', b) := alloc w (content w a) in
            {| mem_ := mem_ w';
               ed := {| cur_y := cur_y (ed w); orig_y := orig_y (ed w); cur_nu := cur_nu (ed w);
                        orig_nu := orig_nu (ed w); cur_chi := cur_chi (ed w); orig_chi := orig_chi (ed w);
                        osigma := osigma (ed w) ++ [(mt, [b])] |} |}
        end
  end.

(** set_sigma of a flat array, AceIO.py:282-310: the given array itself becomes
    the table's array (lines 304, 308; Tabulated1D.y setter,
    data/function.py:238-241, stores the reference).  Raises (no change) when
    the MT is missing or the length differs from the present one. *)
Definition set_sigma_h (w : world) (mt : Z) (a : addr) : world :=
  if Z.eqb mt 1018 then w
  else match (if Z.eqb mt 452 then cur_nu (ed w) else lookup mt (cur_y (ed w))) with
  | None => w
  | Some old =>
      if negb (length (content w a) =? length (content w old)) then w
      else
        let w1 := record_h w mt in
        let e := ed w1 in
        {| mem_ := mem_ w1;
           ed := {| cur_y := if Z.eqb mt 452 then cur_y e else replace mt a (cur_y e);
                    orig_y := orig_y e;
                    cur_nu := if Z.eqb mt 452 then Some a else cur_nu e;
                    orig_nu := orig_nu e; cur_chi := cur_chi e; orig_chi := orig_chi e;
                    osigma := osigma e |} |}
  end.

(** Allocate several arrays. *)
Fixpoint allocs (w : world) (cs : list (list Qc)) : world * list addr :=
  match cs with
  | [] => (w, [])
  | c :: r => let (w1, a) := alloc w c in let (w2, l) := allocs w1 r in (w2, a :: l)
  end.

(** set_sigma(1018, ...), AceIO.py:302-306 and 169-183: every distribution gets
    freshly computed arrays with contents [cs]. *)
Definition set_chi_h (w : world) (cs : list (list Qc)) : world :=
  let w1 := record_h w 1018 in
  let (w2, l) := allocs w1 cs in
  let e := ed w2 in
  {| mem_ := mem_ w2;
     ed := {| cur_y := cur_y e; orig_y := orig_y e; cur_nu := cur_nu e; orig_nu := orig_nu e;
              cur_chi := l; orig_chi := orig_chi e; osigma := osigma e |} |}.

(** One rewrite done by apply_sum_rules (AceIO.py:379-385): a freshly computed
    array is passed to set_sigma. *)
Definition sum_rewrite_h (w : world) (mt : Z) (c : list Qc) : world :=
  let (w1, a) := alloc w c in set_sigma_h w1 mt a.

(** What a session can do; addresses are those returned earlier. *)
Inductive hop :=
| Get (mt : Z) (unadj : bool) (f : list Qc -> list Qc)
| New (c : list Qc)
| Set_ (mt : Z) (a : addr)
| SetChi (cs : list (list Qc))
| SumRewrite (mt : Z) (c : list Qc)
| Write (a : addr) (i : nat) (v : Qc).

Definition hstep (w : world) (o : hop) : world :=
  match o with
  | Get mt u f => fst (get_sigma_h w mt u f)
  | New c => fst (alloc w c)
  | Set_ mt a => set_sigma_h w mt a
  | SetChi cs => set_chi_h w cs
  | SumRewrite mt c => sum_rewrite_h w mt c
  | Write a i v => write w a i v
  end.

Definition hrun (w : world) (os : list hop) : world := fold_left hstep os w.
