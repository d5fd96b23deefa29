(** ENDF-6 numbers, records and sectioning.
    Source: /repo/ASAPy/endf.py:66-440 and the same functions in
    /repo/ASAPy/data/endf.py.  A file is the list of its remaining lines (each
    with its line end); [readline] at the end of the file returns the empty
    string.  [None] is any exception of the conversions ([ValueError]). *)
From Verif Require Import Num Text PyNum.
Local Open Scope list_scope.

Local Notation "'do' x <- e ; k" :=
  (match e with Some x => k | None => None end) (at level 60, x pattern, e at level 59, k at level 60).

(** [t[a:b]]. *)
Definition slice (a b : nat) (t : text) : text := firstn (b - a) (skipn a t).

(** ** Numbers *)
(** endf.py:66: one match of [([\s\-\+]?\d*\.\d+)([\+\-]\d+)] at the start of
    [t]: the two groups and the rest.  No backtracking is needed: each group of
    digits is followed by a character that is not a digit. *)
Definition is_pm (c : ascii) : bool := eqc c "-" || eqc c "+".
Definition match_num (t : text) : option (text * text * text) :=
  let (pre, u) := match t with
                  | c :: r => if is_space c || is_pm c then ([c], r) else ([], t)
                  | [] => ([], [])
                  end in
  let (ip, r1) := digits u in
  match r1 with
  | c :: r2 =>
      if eqc c "." then
        match digits r2 with
        | ((_ :: _) as fp, s :: r4) =>
            if is_pm s then
              match digits r4 with
              | ((_ :: _) as es, r5) => Some (pre ++ ip ++ c :: fp, s :: es, r5)
              | ([], _) => None
              end
            else None
        | _ => None
        end
      else None
  | [] => None
  end.

(** endf.py:89: [_ENDF_FLOAT_RE.sub(r'\1e\2', s)]; [fuel] bounds the number of
    characters, [length s] is enough. *)
Fixpoint sub_ (fuel : nat) (t : text) : text :=
  match fuel with
  | O => t
  | S k =>
      match match_num t with
      | Some (g1, g2, r) => g1 ++ "e"%char :: g2 ++ sub_ k r
      | None => match t with [] => [] | c :: r => c :: sub_ k r end
      end
  end.
Definition sub_exponent (t : text) : text := sub_ (length t) t.

(** endf.py:69-89. *)
Definition float_endf (t : text) : option Qc := py_float (sub_exponent t).

(** ** Records *)
Definition file := list text.
Definition readline (f : file) : text * file :=
  match f with [] => ([], []) | l :: r => (l, r) end.

(** The six items of a control record; C1 and C2 are [None] in Python when skipped. *)
Record cont := { c1 : option Qc; c2 : option Qc; l1 : Z; l2 : Z; n1 : Z; n2 : Z }.

(** endf.py:92-106. *)
Definition get_text_record (f : file) : text * file :=
  let (l, r) := readline f in (firstn 66 l, r).

(** endf.py:109-137. *)
Definition get_cont_record (skipC : bool) (f : file) : option (cont * file) :=
  let (line, f') := readline f in
  do C <- (if skipC then Some (None, None)
           else do a <- float_endf (slice 0 11 line); do b <- float_endf (slice 11 22 line); Some (Some a, Some b));
  do a <- py_int (slice 22 33 line);
  do b <- py_int (slice 33 44 line);
  do c <- py_int (slice 44 55 line);
  do d <- py_int (slice 55 66 line);
  Some ({| c1 := fst C; c2 := snd C; l1 := a; l2 := b; n1 := c; n2 := d |}, f').

(** Python [int(x)] of a float: truncation. *)
Definition trunc (q : Qc) : Z := Z.quot (Qnum (this q)) (Zpos (Qden (this q))).

(** endf.py:140-161: ZA, AWR and the four integers. *)
Definition get_head_record (f : file) : option (Z * Qc * Z * Z * Z * Z * file) :=
  let (line, f') := readline f in
  do za <- float_endf (slice 0 11 line);
  do awr <- float_endf (slice 11 22 line);
  do a <- py_int (slice 22 33 line);
  do b <- py_int (slice 33 44 line);
  do c <- py_int (slice 44 55 line);
  do d <- py_int (slice 55 66 line);
  Some (trunc za, awr, a, b, c, d, f').

(** endf.py:189-190: fields [j .. j+n-1] of a line. *)
Fixpoint row_fields (n j : nat) (line : text) : option (list Qc) :=
  match n with
  | O => Some []
  | S k => do v <- float_endf (slice (11 * j) (11 * (j + 1)) line);
           do vs <- row_fields k (S j) line; Some (v :: vs)
  end.
(** endf.py:186-190: [rows] more lines, the first being number [i]. *)
Fixpoint list_rows (rows i : nat) (npl : Z) (f : file) : option (list Qc * file) :=
  match rows with
  | O => Some ([], f)
  | S k =>
      let (line, f') := readline f in
      do vs <- row_fields (Z.to_nat (Z.min 6 (npl - 6 * Z.of_nat i))) 0 line;
      do (ws, f'') <- list_rows k (S i) npl f';
      Some (vs ++ ws, f'')
  end.
(** endf.py:164-192. *)
Definition get_list_record (f : file) : option (cont * list Qc * file) :=
  do (items, f') <- get_cont_record false f;
  let npl := n1 items in
  do (b, f'') <- list_rows (Z.to_nat ((npl - 1) / 6 + 1)) 0 npl f';
  Some (items, b, f'').

(** endf.py:228-232 and 241-245: [k] pairs from one line, shortening it by 22
    characters after each. *)
Fixpoint pair_row {A} (conv : text -> option A) (k : nat) (line : text) : option (list (A * A)) :=
  match k with
  | O => Some []
  | S k' => do a <- conv (slice 0 11 line); do b <- conv (slice 11 22 line);
            do r <- pair_row conv k' (skipn 22 line); Some ((a, b) :: r)
  end.
(** endf.py:225-232, 238-245: [rows] more lines of at most three pairs, [m]
    pairs of [n] already read. *)
Fixpoint pair_rows {A} (conv : text -> option A) (rows : nat) (n m : Z) (f : file) : option (list (A * A) * file) :=
  match rows with
  | O => Some ([], f)
  | S k =>
      let (line, f') := readline f in
      let to_read := Z.min 3 (n - m) in
      do ps <- pair_row conv (Z.to_nat to_read) line;
      do (qs, f'') <- pair_rows conv k n (m + Z.max 0 to_read) f';
      Some (ps ++ qs, f'')
  end.
Definition read_pairs {A} (conv : text -> option A) (n : Z) (f : file) : option (list (A * A) * file) :=
  if (n <? 0)%Z then None (* np.zeros of a negative size *)
  else pair_rows conv (Z.to_nat ((n - 1) / 3 + 1)) n 0 f.

(** endf.py:195-247: C1, C2, L1, L2, the (breakpoint, scheme) pairs and the
    (x, y) pairs.  The data/endf.py version wraps the same arrays in Tabulated1D. *)
Definition get_tab1_record (f : file) : option (Qc * Qc * Z * Z * list (Z * Z) * list (Qc * Qc) * file) :=
  let (line, f') := readline f in
  do a <- float_endf (slice 0 11 line);
  do b <- float_endf (slice 11 22 line);
  do l1 <- py_int (slice 22 33 line);
  do l2 <- py_int (slice 33 44 line);
  do nr <- py_int (slice 44 55 line);
  do np <- py_int (slice 55 66 line);
  do (regions, f1) <- read_pairs py_int nr f';
  do (points, f2) <- read_pairs float_endf np f1;
  Some (a, b, l1, l2, regions, points, f2).

(** endf.py:250-268. *)
Definition get_tab2_record (f : file) : option (cont * list (Z * Z) * file) :=
  do (items, f') <- get_cont_record false f;
  do (regions, f1) <- read_pairs py_int (n1 items) f';
  Some (items, regions, f1).

(** ** Sections *)
Inductive outcome (A : Type) : Type :=
| Done (a : A)
| Raised
| Hangs.
Arguments Done {A} a.
Arguments Raised {A}.
Arguments Hangs {A}.

(** endf.py:332-339: lines up to the first with MF <> 0 are skipped; the
    material number and the file positioned at that line. *)
Fixpoint skip_head (f : file) : option (Z * file) :=
  match f with
  | [] => None
  | l :: r =>
      do mf <- py_int (slice 70 72 l);
      if (mf =? 0)%Z then skip_head r
      else do mat <- py_int (slice 66 70 l); Some (mat, f)
  end.

Definition key := (Z * Z)%type.
Definition key_eqb (a b : key) : bool := (fst a =? fst b)%Z && (snd a =? snd b)%Z.
(** [self.section[MF, MT] = data]. *)
Fixpoint put (k : key) (v : text) (d : list (key * text)) : list (key * text) :=
  match d with
  | [] => [(k, v)]
  | (k', v') :: r => if key_eqb k k' then (k, v) :: r else (k', v') :: put k v r
  end.
Fixpoint get (k : key) (d : list (key * text)) : option text :=
  match d with
  | [] => None
  | (k', v') :: r => if key_eqb k k' then Some v' else get k r
  end.

(** endf.py:361: end of section. *)
Definition is_send (l : text) : bool := eqt (slice 72 75 l) (str "  0").

(** endf.py:341-365.  [sec] is [None] while looking for the next section and
    the section's key and text so far while inside it.  Returning to the
    remembered position is modelled by treating the line again as the first
    line of the section.  A file that ends inside a section is read for ever
    (readline keeps returning the empty string). *)
Fixpoint scan (sec : option (key * text)) (d : list (key * text)) (f : file) : outcome (list (key * text) * file) :=
  match f with
  | [] => match sec with None => Raised | Some _ => Hangs end
  | l :: r =>
      match sec with
      | Some (k, t) => if is_send l then scan None (put k t d) r else scan (Some (k, t ++ l)) d r
      | None =>
          match py_int (slice 66 70 l), py_int (slice 70 72 l), py_int (slice 72 75 l) with
          | Some mat, Some mf, Some mt =>
              if ((0 <? mt) || (mat =? 0))%Z then
                if (mat =? 0)%Z then Done (d, r)
                else if is_send l then scan None (put (mf, mt) [] d) r
                else scan (Some ((mf, mt), l)) d r
              else scan None d r
          | _, _, _ => Raised
          end
      end
  end.

(** endf.py:43-46, 382-386. *)
Definition library (n : Z) : text :=
  match n with
  | 0 => str "ENDF/B" | 1 => str "ENDF/A" | 2 => str "JEFF" | 3 => str "EFF"
  | 4 => str "ENDF/B High Energy" | 5 => str "CENDL" | 6 => str "JENDL"
  | 31 => str "INDL/V" | 32 => str "INDL/A" | 33 => str "FENDL" | 34 => str "IRDF"
  | 35 => str "BROND" | 36 => str "INGDB-90" | 37 => str "FENDL/A" | 41 => str "BROND"
  | _ => str "Unknown"
  end%Z.

(** endf.py:371-444: what _read_header stores. *)
Record header := {
  atomic_number : Z; mass_number : Z; mass : Qc; lrp : Z; fissionable : bool;
  modification : Z; excitation_energy : Qc; stable : bool; state : Z; isomeric_state : Z;
  projectile_mass : Qc; energy_max : Qc; sublibrary : Z; libinfo : text * Z * Z;
  temperature : Qc; derived : bool; description : list text;
  reaction_list : list (Z * Z * Z * Z) }.

(** endf.py:419. *)
Fixpoint text_records (n : nat) (f : file) : list text * file :=
  match n with
  | O => ([], f)
  | S k => let (t, f') := get_text_record f in
           let (ts, f'') := text_records k f' in (t :: ts, f'')
  end.
(** endf.py:433-444. *)
Fixpoint directory (n : nat) (f : file) : option (list (Z * Z * Z * Z)) :=
  match n with
  | O => Some []
  | S k =>
      let (line, f') := readline f in
      do mf <- py_int (slice 22 33 line);
      do mt <- py_int (slice 33 44 line);
      do nc <- py_int (slice 44 55 line);
      let mod_ := match py_int (slice 55 66 line) with Some m => m | None => 0%Z end in
      do r <- directory k f';
      Some ((mf, mt, nc, mod_) :: r)
  end.

(** endf.py:371-444.  [None] also for the failing assertion on the format and
    a missing section (1, 451).  The text record list is kept whole. *)
Definition read_header (sections : list (key * text)) : option header :=
  do t <- get (1, 451)%Z sections;
  do (za, awr, hl1, hl2, hn1, hn2, f1) <- get_head_record (lines t);
  let Z_ := (za / 1000)%Z in
  let A_ := (za mod 1000)%Z in
  do (k1, f2) <- get_cont_record false f1;
  do (k2, f3) <- get_cont_record false f2;
  do (k3, f4) <- get_cont_record false f3;
  do e1 <- c1 k1; do s1 <- c2 k1; do m2 <- c1 k2; do x2 <- c2 k2; do t3 <- c1 k3;
  if negb (n2 k1 =? 6)%Z then None else
  let (txt, f5) := text_records (Z.to_nat (n1 k3)) f4 in
  do dir <- directory (Z.to_nat (n2 k3)) f5;
  Some {| atomic_number := Z_; mass_number := A_; mass := awr; lrp := hl1; fissionable := (hl2 =? 1)%Z;
          modification := hn2; excitation_energy := e1; stable := (trunc s1 =? 0)%Z;
          state := if ((Z_ =? 95) && (A_ =? 242) && (l2 k1 =? 1))%Z then 2%Z else l1 k1;
          isomeric_state := l2 k1; projectile_mass := m2; energy_max := x2; sublibrary := n1 k2;
          libinfo := (library hn1, n2 k2, l1 k2); temperature := t3; derived := (0 <? l1 k3)%Z;
          description := txt; reaction_list := dir |}.

(** endf.py:321-369. *)
Record evaluation := { material : Z; section : list (key * text); info : header }.
Definition evaluate (f : file) : outcome (evaluation * file) :=
  match skip_head f with
  | None => Raised
  | Some (mat, f1) =>
      match scan None [] f1 with
      | Done (d, f2) =>
          match read_header d with
          | Some h => Done ({| material := mat; section := d; info := h |}, f2)
          | None => Raised
          end
      | Raised => Raised
      | Hangs => Hangs
      end
  end.

(** endf.py:271-294.  [closes] says whether the constructor closes the file it
    was given (endf.py:369; data/endf.py has no such line): [tell] on a closed
    file raises.  [fuel] bounds the number of materials; each takes at least one
    line. *)
Fixpoint evaluations_ (closes : bool) (fuel : nat) (f : file) : outcome (list evaluation) :=
  match fuel with
  | O => Raised
  | S k =>
      let (line, _) := readline f in
      if eqt (slice 66 70 line) (str "  -1") then Done []
      else
        match evaluate f with
        | Done (ev, f') =>
            if closes then Raised
            else match evaluations_ closes k f' with
                 | Done evs => Done (ev :: evs)
                 | Raised => Raised
                 | Hangs => Hangs
                 end
        | Raised => Raised
        | Hangs => Hangs
        end
  end.
Definition get_evaluations (closes : bool) (f : file) : outcome (list evaluation) :=
  evaluations_ closes (S (length f)) f.
