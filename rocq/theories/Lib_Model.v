(** ACE libraries: reading text and binary files, converting one to the other.
    Source: /repo/ASAPy/data/ace.py:96-165 (ascii_to_binary), 250-338 (_read_binary),
            340-431 (_read_ascii).
    Simplifications: text is ASCII; a Python float is an element of [D], with its text
    and byte representations given; [verbose] is off; a negative length of the data in
    a binary file counts as an error. *)
From Coq Require Import ZArith NArith List Bool Arith Ascii.
From Verif Require Import Text Dec PyNum.
Import ListNotations.
Local Open Scope nat_scope.

Definition bytes := list ascii.

(** Floats as this code meets them. *)
Record floats (D : Type) := mkFloats {
  flt : text -> option D;               (* float(s) *)
  prefix : text -> option (D * bool);   (* strtod on a word: value of the longest numeric prefix, is it all? *)
  enc : D -> bytes;                     (* struct '=d' *)
  dec : bytes -> D;
  zero : D }.
Arguments flt {D}. Arguments prefix {D}. Arguments enc {D}. Arguments dec {D}. Arguments zero {D}.

(** ace.py:434-: a Table; the three arrays start with a 0 put in by the readers. *)
Record table (D : Type) := mkTable {
  t_name : text; t_awr : D; t_temp : D; t_pairs : list (Z * D); t_nxs : list Z; t_jxs : list Z; t_xss : list D }.
Arguments mkTable {D}. Arguments t_name {D}. Arguments t_awr {D}. Arguments t_temp {D}. Arguments t_pairs {D}. Arguments t_nxs {D}. Arguments t_jxs {D}. Arguments t_xss {D}.

(** [s[a:b]]. *)
Definition cols {A} (a b : nat) (l : list A) : list A := firstn (b - a) (skipn a l).
(** [list(map(f, l))]; [None]: ValueError. *)
Fixpoint all_some {A B} (f : A -> option B) (l : list A) : option (list B) :=
  match l with [] => Some [] | x :: r => match f x, all_some f r with Some a, Some b => Some (a :: b) | _, _ => None end end.
(** [l[::2]] and [l[1::2]]. *)
Fixpoint evens {A} (l : list A) : list A := match l with [] => [] | x :: [] => [x] | x :: _ :: r => x :: evens r end.
Definition odds {A} (l : list A) : list A := match l with [] => [] | _ :: r => evens r end.
(** [' '.join(lines).split()]. *)
Definition tokens (ls : list text) : list text := words (join ls).
(** ace.py:131, 358: [line.split()[0][1] == '.']; [None]: IndexError. *)
Definition new_style (l : text) : option bool := match words l with (_ :: c :: _) :: _ => Some (eqc c ".") | _ => None end.

(** ** struct *)
(** '=i': little endian, two's complement; [None]: struct.error. *)
Definition enc_i (z : Z) : option bytes :=
  if ((- 2 ^ 31 <=? z) && (z <? 2 ^ 31))%Z
  then Some (map (fun k => ascii_of_N (Z.to_N ((z / 256 ^ k) mod 256))) [0; 1; 2; 3]%Z) else None.
Definition dec_i (b : bytes) : Z :=
  let u := fold_right (fun c a => (Z.of_N (N_of_ascii c) + 256 * a)%Z) 0%Z b in
  if (u <? 2 ^ 31)%Z then u else (u - 2 ^ 32)%Z.
(** '=10s': cut or filled with null bytes. *)
Definition enc_s (n : nat) (t : text) : bytes := firstn n t ++ repeat Ascii.zero (n - length t).
Definition nulls (n : nat) : bytes := repeat Ascii.zero n.
(** Groups of [n] bytes. *)
Fixpoint chunks (n k : nat) (b : bytes) : list bytes := match k with O => [] | S j => firstn n b :: chunks n j (skipn n b) end.

Section Float.
Context {D : Type} (F : floats D).

(** ** Text to binary *)
Definition record_length := 4096.
(** ace.py:140-147, 150-154. *)
Fixpoint enc_pairs (l : list (Z * D)) : option bytes :=
  match l with [] => Some [] | (i, d) :: r => match enc_i i, enc_pairs r with Some a, Some b => Some (a ++ enc F d ++ b) | _, _ => None end end.
Definition enc_ints (l : list Z) : option bytes := match all_some enc_i l with Some bs => Some (concat bs) | None => None end.
(** ace.py:139-163: one table; gives the bytes and the number of lines used. *)
Definition convert_one (ls : list text) : option (bytes * nat) :=
  match nth_error ls 0, nth_error ls 1 with
  | Some h0, Some h1 =>
      match flt F (cols 10 22 h0), flt F (cols 22 34 h0) with
      | Some aw0, Some tz =>
          let head := enc_s 10 (cols 0 10 h0) ++ enc F aw0 ++ enc F tz ++ enc_s 10 (cols 35 45 h0) ++ enc_s 70 (cols 0 70 h1) ++ enc_s 10 (cols 70 80 h1) in
          let data := tokens (cols 2 6 ls) in
          match all_some py_int (evens data), all_some (flt F) (odds data), all_some py_int (tokens (cols 6 8 ls)), all_some py_int (tokens (cols 8 12 ls)) with
          | Some iz, Some aw, Some nxs, Some jxs =>
              let izaw := combine iz aw in
              match enc_pairs izaw, enc_ints (nxs ++ jxs), nxs with
              | Some b1, Some b2, n :: _ =>
                  if (length izaw =? 16) && (length (nxs ++ jxs) =? 48) && (0 <=? n)%Z then
                    let n_lines := Z.to_nat ((n + 3) / 4) in
                    match all_some (flt F) (tokens (cols 12 (12 + n_lines) ls)) with
                    | Some xss =>
                        let extra := record_length - Z.to_nat ((Z.of_nat (length xss * 8) - 1) mod Z.of_nat record_length + 1) in
                        if length xss =? Z.to_nat n
                        then Some (head ++ b1 ++ b2 ++ nulls (record_length - 500) ++ concat (map (enc F) xss) ++ nulls extra, 12 + n_lines)
                        else None
                    | None => None
                    end
                  else None
              | _, _, _ => None
              end
          | _, _, _, _ => None
          end
      | _, _ => None
      end
  | _, _ => None
  end.
(** ace.py:127-165; [None]: an exception.  [fuel]: the number of lines is enough. *)
Fixpoint convert (fuel : nat) (ls : list text) : option bytes :=
  match fuel with
  | O => None
  | S k =>
      match ls with
      | [] => Some []
      | l0 :: _ =>
          match new_style l0 with
          | None => None
          | Some new =>
              let ls' := if new then match nth_error ls 1 with
                                     | Some l1 => match nth_error (words l1) 3 with
                                                  | Some w => if eqt w (str "3") then Some (skipn 3 ls) else None
                                                  | None => None end
                                     | None => None end
                         else Some ls in
              match ls' with
              | None => None
              | Some ls' => match convert_one ls' with
                            | Some (b, used) => match convert k (skipn used ls') with Some r => Some (b ++ r) | None => None end
                            | None => None
                            end
              end
          end
      end
  end.
Definition ascii_to_binary (ls : list text) : option bytes := convert (S (length ls)) ls.

(** ** Reading binary *)
(** ace.py:269-338; [wanted]: table_names.  [None]: an exception. *)
Fixpoint read_binary (fuel : nat) (wanted : option (list text)) (b : bytes) : option (list (table D)) :=
  match fuel with
  | O => None
  | S k =>
      match b with
      | [] => Some []
      | _ =>
          if length b <? 116 + 192 + 64 then None else
          let name := trim (cols 0 10 b) in
          let pairs := map (fun c => (dec_i (cols 0 4 c), dec F (cols 4 12 c))) (chunks 12 16 (cols 116 308 b)) in
          let nxs := map dec_i (chunks 4 16 (cols 308 372 b)) in
          let len := nth 0 nxs 0%Z in
          if (len <? 0)%Z then None else
          let n_records := (Z.to_nat len + 512 - 1) / 512 in
          let next := skipn (record_length * (n_records + 1)) b in
          let skipped := match wanted with Some ws => negb (existsb (eqt name) ws) | None => false end in
          if skipped then read_binary k wanted next else
          if length b <? 500 then None else
          let jxs := map dec_i (chunks 4 32 (cols 372 500 b)) in
          let data := cols record_length (record_length + Z.to_nat len * 8) b in
          if length data <? Z.to_nat len * 8 then None else
          let xss := map (dec F) (chunks 8 (Z.to_nat len) data) in
          match read_binary k wanted next with
          | Some r => Some (mkTable name (dec F (cols 10 18 b)) (dec F (cols 18 26 b)) pairs (0%Z :: nxs) (0%Z :: jxs) (zero F :: xss) :: r)
          | None => None
          end
      end
  end.

(** ** Reading text *)
(** [np.fromstring(s, sep=' ')] on the words of [s]: stops at the first that is not a
    number, keeping the number it begins with. *)
Fixpoint from_words {A} (p : text -> option (A * bool)) (ws : list text) : list A :=
  match ws with
  | [] => []
  | w :: r => match p w with Some (d, true) => d :: from_words p r | Some (d, false) => [d] | None => [] end
  end.
(** The same on integers. *)
Definition int_prefix (w : text) : option (Z * bool) :=
  let (neg, u) := sign w in
  match digits u with
  | (d :: ds, r) => Some (signed neg (Z.of_N (dval (d :: ds))), match r with [] => true | _ => false end)
  | _ => None
  end.
(** [ace_file.readline()] k times, '' at the end of the file. *)
Fixpoint readline_n (k : nat) (f : list text) : list text * list text :=
  match k with
  | O => ([], f)
  | S j => match f with
           | [] => let (a, r) := readline_n j [] in ([] :: a, r)
           | l :: f' => let (a, r) := readline_n j f' in (l :: a, r)
           end
  end.
(** [ace_file.readlines(hint)] with a positive hint: until that many characters. *)
Fixpoint take_hint (hint got : Z) (f : list text) : list text * list text :=
  match f with
  | [] => ([], [])
  | l :: r => let got' := (got + Z.of_nat (length l))%Z in
              if (hint <=? got')%Z then ([l], r) else let (a, b) := take_hint hint got' r in (l :: a, b)
  end.
Definition readlines (hint : Z) (f : list text) : list text * list text :=
  if (hint <=? 0)%Z then (f, []) else take_hint hint 0 f.
Definition total_length (ls : list text) : nat := length (concat ls).
(** Shift the window of lines: pop one, read one. *)
Definition shift (w : list text * list text) : list text * list text :=
  let (ls, f) := w in let (a, f') := readline_n 1 f in (tl ls ++ a, f').
(** ace.py:356-378: name, atomic weight ratio, temperature; the window of 13 lines and
    the rest of the file, shifted for a new-style header.  [None]: an exception. *)
Definition header (ls f : list text) : option (text * D * D * (list text * list text)) :=
  match new_style (nth 0 ls []) with
  | None => None
  | Some true =>
      match words (nth 0 ls []), words (nth 1 ls []) with
      | _ :: name :: _, a :: t :: _ :: c :: _ =>
          match flt F a, flt F t, py_int c with
          | Some awr, Some temp, Some k => Some (name, awr, temp, Nat.iter (Z.to_nat k) shift (ls, f))
          | _, _, _ => None
          end
      | _, _ => None
      end
  | Some false =>
      match words (nth 0 ls []) with
      | name :: a :: t :: _ => match flt F a, flt F t with Some awr, Some temp => Some (name, awr, temp, (ls, f)) | _, _ => None end
      | _ => None
      end
  end.
(** [table_names < tables_seen]: a proper subset, as sets. *)
Definition proper_subset (a b : list text) : bool :=
  forallb (fun x => existsb (eqt x) b) a && negb (forallb (fun x => existsb (eqt x) a) b).
(** ace.py:354-431; a file open for text refuses relative [seek]s, except by 0.
    [repair] is the regular expression of ace.py:420 ([None] from this function: an
    exception, also of the assertion). *)
Fixpoint read_text (fuel : nat) (repair : list text -> list text) (wanted : option (list text)) (seen : list text) (w : list text * list text) : option (list (table D)) :=
  match fuel with
  | O => None
  | S k =>
      let (ls0, f0) := w in
      if forallb is_space (nth 0 ls0 []) then Some [] else
      match header ls0 f0 with
      | None => None
      | Some (name, awr, temp, (ls, f)) =>
          let data := tokens (cols 2 6 ls) in
          match all_some py_int (evens data), all_some (flt F) (odds data) with
          | Some iz, Some aw =>
              let nxs := 0%Z :: from_words int_prefix (tokens (cols 6 8 ls)) in
              match nth_error nxs 1 with
              | None => None
              | Some n =>
                  let n_lines := ((n + 3) / 4)%Z in
                  let n_bytes := (Z.of_nat (length (last ls [])) * (n_lines - 2) + 1)%Z in
                  let stop := match wanted with Some ws => proper_subset ws seen | None => false end in
                  if stop then Some [] else
                  let seen' := name :: seen in
                  let skipped := match wanted with Some ws => negb (existsb (eqt name) ws) | None => false end in
                  if skipped then
                    if (n_bytes =? 0)%Z then read_text k repair wanted seen' (readline_n 13 (snd (readline_n 1 f))) else None
                  else
                    let (more, f') := readlines n_bytes f in
                    let all := ls ++ more in
                    let over := skipn (Z.to_nat (12 + n_lines)) all in
                    if (0 <? length over) && (0 <? total_length over) then None else
                    let all := if 0 <? length over then firstn (Z.to_nat (12 + n_lines)) all else all in
                    let jxs := 0%Z :: from_words int_prefix (tokens (cols 8 12 all)) in
                    let ws := words (concat (cols 12 (12 + Z.to_nat n_lines) all)) in
                    let xss := zero F :: from_words (prefix F) ws in
                    let xss := if (Z.of_nat (length xss) =? n + 1)%Z then xss else zero F :: from_words (prefix F) (repair ws) in
                    if (Z.of_nat (length xss) =? n + 1)%Z
                    then match read_text k repair wanted seen' (readline_n 13 f') with
                         | Some r => Some (mkTable name awr temp (combine iz aw) nxs jxs xss :: r)
                         | None => None
                         end
                    else None
              end
          | _, _ => None
          end
      end
  end.
(** ace.py:340-431 on a whole file. *)
Definition read_ascii (repair : list text -> list text) (wanted : option (list text)) (ls : list text) : option (list (table D)) :=
  read_text (S (length ls)) repair wanted [] (readline_n 13 ls).
(** ace.py:250-338 on a whole file. *)
Definition read_bin (wanted : option (list text)) (b : bytes) : option (list (table D)) := read_binary (S (length b)) wanted b.
End Float.
