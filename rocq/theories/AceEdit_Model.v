(** Model of the ACE editor: reading, setting and sum rules.
    Source: /repo/ASAPy/AceIO.py, class AceEditor (lines 7-410), and the
    tabulated function it evaluates, /repo/ASAPy/data/function.py. *)
From Verif Require Import Num Chi_Model.

(** A Tabulated1D as built for every ACE cross section
    (data/reaction.py:993, data/neutron.py:622,628,704): one linear-linear
    region covering all points, hence only [x] and [y]. *)
Record tab := mkTab { tx : list Qc; ty : list Qc }.

(** [np.isclose(a, b, atol=1e-14)] with numpy's default rtol=1e-5, as called at
    data/function.py:207-208: |a-b| <= atol + rtol*|b|. *)
Definition isclose (a b : Qc) : bool :=
  qleb (qabs (a - b)) (qc 1 100000000000000 + qc 1 100000 * qabs b)%Qc.

(** [np.searchsorted(xs, e, side='right')] (data/function.py:167) for a sorted
    array: the number of leading entries <= e.  Simplification: on an unsorted
    array numpy's bisection may return something else. *)
Fixpoint ssright (xs : list Qc) (e : Qc) : nat :=
  match xs with
  | [] => 0
  | x :: r => if qleb x e then S (ssright r e) else 0
  end.

(** Tabulated1D.__call__ at one energy, data/function.py:154-210, for a single
    linear-linear region (breakpoints = [len(x)], i_begin = 0,
    i_end = len(x)-1).  The last assignment wins (line 208 after 207). *)
Definition tab_at (t : tab) (e : Qc) : Qc :=
  let n := length (tx t) in
  let base :=
    match ssright (tx t) e with
    | O => 0%Qc
    | S i =>
        if S i <? n then
          let xi := nth i (tx t) 0%Qc in
          let xi1 := nth (S i) (tx t) 0%Qc in
          let yi := nth i (ty t) 0%Qc in
          let yi1 := nth (S i) (ty t) 0%Qc in
          (yi + (e - xi) / (xi1 - xi) * (yi1 - yi))%Qc
        else 0%Qc
    end in
  if isclose e (last (tx t) 0%Qc) then last (ty t) 0%Qc
  else if isclose e (hd 0%Qc (tx t)) then hd 0%Qc (ty t)
  else base.

(** Tabulated1D.__call__ on an array.  [None]: an empty table, where
    [self.x[0]] raises IndexError (function.py:207). *)
Definition tab_call (t : tab) (es : list Qc) : option (list Qc) :=
  match tx t with [] => None | _ => Some (map (tab_at t) es) end.

(** The parts of IncidentNeutron used by the editor: the ordered dictionary of
    reactions (one temperature, data/neutron.py:571-705), the total nu-bar
    table [reactions[18].derived_products[0].yield_] (AceIO.py:189-240) and the
    prompt fission spectrum [reactions[18].products[0].distribution[0].energy]
    (AceIO.py:84-187).  [None] for nu/chi: the file does not offer it in the
    supported form, every access raises. *)
Record table := mkTable {
  reactions : list (Z * tab);
  nu : option tab;
  chi : option (list dist) }.

(** Values accepted by set_sigma / recorded in original_sigma: a flat array
    (cross section, nu-bar) or a list of arrays (chi). *)
Inductive value := VFlat (v : list Qc) | VChi (v : list (list Qc)).

(** Editor object: the attributes set at AceIO.py:25-55. *)
Record editor := mkEditor {
  cur : table;                     (* self.table *)
  orig : table;                    (* self.original_table *)
  all_mts : list Z;                (* self.all_mts *)
  original_sigma : list (Z * value);  (* self.original_sigma *)
  adjusted : list Z }.             (* self.adjusted_mts, a set *)

(** Dictionary lookup [d[k]]. *)
Fixpoint lookup {A} (k : Z) (l : list (Z * A)) : option A :=
  match l with
  | [] => None
  | (k', v) :: r => if Z.eqb k k' then Some v else lookup k r
  end.

(** In-place change of the object stored under an existing key (the reaction's
    y attribute, AceIO.py:308). *)
Fixpoint replace {A} (k : Z) (v : A) (l : list (Z * A)) : list (Z * A) :=
  match l with
  | [] => []
  | (k', v') :: r => if Z.eqb k k' then (k', v) :: r else (k', v') :: replace k v r
  end.

(** Membership tests [x in self.all_mts] etc. *)
Definition mem (k : Z) (l : list Z) : bool := existsb (Z.eqb k) l.

(** [set.add], AceIO.py:310, 385. *)
Definition set_add (k : Z) (l : list Z) : list Z := if mem k l then l else l ++ [k].

(** AceEditor.__init__, AceIO.py:25-55, after the file has been read into
    [t] (twice: lines 25-26).  Temperature selection is modelled in
    AceOpen_Model.v. *)
Definition open_editor (t : table) : editor :=
  let keys := map fst (reactions t) in
  {| cur := t; orig := t;
     all_mts := keys ++ (if mem 18 keys then [452; 1018]%Z else []);
     original_sigma := []; adjusted := [] |}.

(** get_energy, AceIO.py:57-82; [None] = raises.  For MT=1018 the result is the
    list of outgoing grids; only its length is used by set_sigma, so the model
    returns the list of grids separately ([chi_energies]). *)
Definition get_energy (s : editor) (mt : Z) : option (list Qc) :=
  if Z.eqb mt 452 then option_map tx (nu (cur s))
  else option_map tx (lookup mt (reactions (cur s))).

Definition chi_energies (s : editor) : option (list (list Qc)) :=
  if mem 18 (all_mts s) then option_map (map dx) (chi (cur s)) else None.

(** get_sigma, AceIO.py:243-280, for MT <> 1018; [unadj] selects the original
    table; [at_e] is at_energies.  nu-bar ignores at_energies (line 263). *)
Definition get_sigma (s : editor) (mt : Z) (at_e : option (list Qc)) (unadj : bool)
  : option (list Qc) :=
  let t := if unadj then orig s else cur s in
  if Z.eqb mt 452 then option_map ty (nu t)
  else match lookup mt (reactions t) with
       | None => None
       | Some rx => match at_e with
                    | None => Some (ty rx)
                    | Some es => tab_call rx es
                    end
       end.

(** get_sigma(1018), AceIO.py:264-265: the list of pdfs. *)
Definition get_sigma_chi (s : editor) (unadj : bool) : option (list (list Qc)) :=
  if mem 18 (all_mts s) then option_map (map dp) (chi (if unadj then orig s else cur s)) else None.

Definition set_y (t : tab) (v : list Qc) : tab := {| tx := tx t; ty := v |}.

(** Recording the first original, AceIO.py:299-301. *)
Definition record_original (s : editor) (mt : Z) (v : value) : list (Z * value) :=
  match lookup mt (original_sigma s) with
  | Some _ => original_sigma s
  | None => original_sigma s ++ [(mt, v)]
  end.

(** set_sigma, AceIO.py:282-310.  Second component [false] = raised; the editor
    returned is the state left behind.  Simplifications: a flat array given for
    MT=1018 or a list of arrays for another MT is treated as raising at once;
    arrays are stored by value (aliasing is modelled in AceHeap_Model.v). *)
Definition set_sigma (s : editor) (mt : Z) (v : value) : editor * bool :=
  match v with
  | VFlat ys =>
      if Z.eqb mt 1018 then (s, false)
      else match get_energy s mt with
      | None => (s, false)
      | Some es =>
          if negb (length ys =? length es) then (s, false)
          else match get_sigma s mt None false with
          | None => (s, false)
          | Some old =>
              let os := record_original s mt (VFlat old) in
              let t' :=
                if Z.eqb mt 452 then
                  {| reactions := reactions (cur s);
                     nu := option_map (fun n => set_y n ys) (nu (cur s));
                     chi := chi (cur s) |}
                else
                  {| reactions :=
                       match lookup mt (reactions (cur s)) with
                       | Some rx => replace mt (set_y rx ys) (reactions (cur s))
                       | None => reactions (cur s)
                       end;
                     nu := nu (cur s); chi := chi (cur s) |} in
              ({| cur := t'; orig := orig s; all_mts := all_mts s;
                  original_sigma := os; adjusted := set_add mt (adjusted s) |}, true)
          end
      end
  | VChi pdfs =>
      if negb (Z.eqb mt 1018) then (s, false)
      else match chi_energies s, chi (cur s), get_sigma_chi s false with
      | Some es, Some ds, Some old =>
          if negb (length pdfs =? length es) then (s, false)
          else
            let os := record_original s mt (VChi old) in
            let (ds', ok) := set_chi ds pdfs in
            ({| cur := {| reactions := reactions (cur s); nu := nu (cur s); chi := Some ds' |};
                orig := orig s; all_mts := all_mts s; original_sigma := os;
                adjusted := if ok then set_add mt (adjusted s) else adjusted s |}, ok)
      | _, _, _ => (s, false)
      end
  end.

(** [list(range(a, b))]. *)
Definition zrange (a b : Z) : list Z :=
  map (fun i => (a + Z.of_nat i)%Z) (seq 0 (Z.to_nat (b - a))).

(** The literal constituent lists of apply_sum_rules, AceIO.py:335-357. *)
Definition mt_103 : list Z := zrange 600 650.
Definition mt_104 : list Z := zrange 650 700.
Definition mt_105 : list Z := zrange 700 750.
Definition mt_106 : list Z := zrange 750 800.
Definition mt_107 : list Z := zrange 800 850.
Definition mt_101 : list Z :=
  ([102] ++ mt_103 ++ mt_104 ++ mt_105 ++ mt_106 ++ mt_107
   ++ [108; 109; 111; 112; 113; 114; 115; 116; 117; 155; 182; 191; 192; 193; 197])%Z.
Definition mt_18 : list Z := [19; 20; 21; 38]%Z.
Definition mt_27 : list Z := mt_18 ++ mt_101.
Definition mt_16 : list Z := zrange 875 892.
Definition mt_4 : list Z := zrange 50 92.
Definition mt_3 : list Z :=
  ([4; 5; 11; 16; 17; 18] ++ zrange 22 27 ++ zrange 28 38 ++ [41; 42]
   ++ zrange 44 46 ++ zrange 102 118)%Z.
Definition mt_1 : list Z := (2 :: mt_3)%Z.

(** [zip(sum_mts, sum_mts_list)], AceIO.py:360-363: the processing order. *)
Definition sum_list : list (Z * list Z) :=
  [(107, mt_107); (106, mt_106); (105, mt_105); (104, mt_104); (103, mt_103);
   (101, mt_101); (18, mt_18); (27, mt_27); (16, mt_16); (4, mt_4);
   (3, mt_3); (1, mt_1)]%Z.

(** _check_if_mts_present, AceIO.py:388-410: set intersection.  Python's
    iteration order over the resulting set is unspecified; the model keeps the
    order of [search_in].  Only sums over the result are formed. *)
Definition present (search search_in : list Z) : list Z :=
  filter (fun m => mem m search) (nodup Z.eq_dec search_in).

(** Column sums [original_sigmas.sum(axis=0)], AceIO.py:376-377; [n] columns. *)
Definition col_sum (n : nat) (rows : list (list Qc)) : list Qc :=
  fold_right (zipw Qcplus) (repeat 0%Qc n) rows.

Fixpoint all_some {A} (l : list (option A)) : option (list A) :=
  match l with
  | [] => Some []
  | None :: _ => None
  | Some a :: r => option_map (cons a) (all_some r)
  end.

(** One iteration of the loop of apply_sum_rules, AceIO.py:363-385; [false] =
    an exception escapes. *)
Definition sum_rule (s : editor) (rule : Z * list Z) : editor * bool :=
  let (sum_mt, parts) := rule in
  if mem sum_mt (all_mts s) then
    match present parts (all_mts s) with
    | [] => (s, true)
    | pres =>
        match present (adjusted s) pres with
        | [] => (s, true)
        | adj =>
            match get_energy s sum_mt with
            | None => (s, false)
            | Some es =>
                match all_some (map (fun m => get_sigma s m (Some es) true) adj),
                      all_some (map (fun m => get_sigma s m (Some es) false) adj),
                      get_sigma s sum_mt (Some es) true with
                | Some os, Some cs, Some o =>
                    let original_sum := col_sum (length es) os in
                    let adjusted_sum := col_sum (length es) cs in
                    let (s', ok) :=
                      set_sigma s sum_mt
                        (VFlat (zipw Qcplus (zipw Qcminus o original_sum) adjusted_sum)) in
                    if ok then
                      ({| cur := cur s'; orig := orig s'; all_mts := all_mts s';
                          original_sigma := original_sigma s';
                          adjusted := set_add sum_mt (adjusted s') |}, true)
                    else (s', false)
                | _, _, _ => (s, false)
                end
            end
        end
    end
  else (s, true).

(** The loop of apply_sum_rules; stops at the first exception. *)
Fixpoint sum_rules (rules : list (Z * list Z)) (s : editor) : editor * bool :=
  match rules with
  | [] => (s, true)
  | r :: rest => let (s', ok) := sum_rule s r in
                 if ok then sum_rules rest s' else (s', false)
  end.

(** apply_sum_rules, AceIO.py:313-385. *)
Definition apply_sum_rules (s : editor) : editor * bool := sum_rules sum_list s.

(** A user's call on the editor, and a history of calls; a call that raises
    leaves the state it left behind and the session goes on. *)
Inductive call := SetSigma (mt : Z) (v : value) | SumRules.

Definition do_call (s : editor) (c : call) : editor * bool :=
  match c with SetSigma mt v => set_sigma s mt v | SumRules => apply_sum_rules s end.

Definition run (s : editor) (cs : list call) : editor :=
  fold_left (fun s c => fst (do_call s c)) cs s.
