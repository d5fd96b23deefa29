(** Reading the matrix text written by boxer2mat.
    Source: /repo/ASAPy/EndfToCov.py:164-285.
    Simplifications: exact decimal values instead of floats; [int] as in PyNum
    (no underscores); numpy's number scanner accepts what Python's [float]
    accepts (no inf/nan/hexadecimal). *)
From Verif Require Import Num Text Dec PyNum.
From Coq Require Import ZArith.
Local Open Scope list_scope.
Local Open Scope nat_scope.

(** Why reading stops: BOXR reported an error (RuntimeError), no block found
    (Exception), fewer than four blocks (IndexError), arrays of unsuitable size
    (ValueError). *)
Inductive outcome :=
| BoxrError | NoBlocks | MissingBlock | BadShape
| Data (bounds xsec sdev : list Qc) (cov : list (list Qc)).

(** EndfToCov.py:182 [pat in line]. *)
Fixpoint occurs (pat t : text) : bool :=
  match strip pat t with
  | Some _ => true
  | None => match t with [] => false | _ :: r => occurs pat r end
  end.
Definition error_text : text := str "***ERROR IN BOXR***".

(** EndfToCov.py:213-221: the first word is an integer. *)
Definition is_header (line : text) : bool :=
  match words line with
  | [] => false
  | w :: _ => match py_int w with Some _ => true | None => false end
  end.
(** EndfToCov.py:210-226: the numbers of the header lines, counted from [k]. *)
Fixpoint header_lines (k : nat) (ls : list text) : list nat :=
  match ls with
  | [] => []
  | l :: r => if is_header l then k :: header_lines (S k) r else header_lines (S k) r
  end.

(** EndfToCov.py:270 [line.replace(' ', '0')]. *)
Definition blanks_to_zeros (t : text) : text := map (fun c => if eqc c sp then "0"%char else c) t.
(** EndfToCov.py:271 [''.join(t.split())]. *)
Definition no_space (t : text) : text := filter (fun c => negb (is_space c)) t.
(** EndfToCov.py:278 [[s[i:i+w] for i in range(0, len(s), w)]]; at most [k] pieces. *)
Fixpoint pieces (k w : nat) (t : text) : list text :=
  match k, t with
  | _, [] => []
  | O, _ => []
  | S k', _ => firstn w t :: pieces k' w (skipn w t)
  end.
(** The longest beginning of at most [k] characters that is a number. *)
Fixpoint scan (k : nat) (t : text) : option (Qc * nat) :=
  match py_float (firstn k t) with
  | Some v => Some (v, k)
  | None => match k with O => None | S k' => scan k' t end
  end.
(** EndfToCov.py:280-282: [np.fromstring(' '.join(l), sep=' ')] for pieces without white
    space: a piece that is not a number ends the reading after its longest
    numeric beginning (numpy only warns). *)
Fixpoint fromstring (l : list text) : list Qc :=
  match l with
  | [] => []
  | t :: r =>
      match scan (length t) t with
      | None => []
      | Some (v, k) => if k =? length t then v :: fromstring r else [v]
      end
  end.
(** EndfToCov.py:251-284. *)
Definition block (ls : list text) : list Qc :=
  let s := concat (map (fun l => no_space (blanks_to_zeros l)) ls) in
  fromstring (pieces (length s) 10 s).

(** [l[a:b]] for a <= b. *)
Definition lines_between (a b : nat) (ls : list text) : list text := firstn (b - a) (skipn a ls).
(** EndfToCov.py:243 [rel_dev * xsec] with numpy's broadcasting of arrays of
    length one; [None] is ValueError. *)
Fixpoint products (a b : list Qc) : list Qc :=
  match a, b with x :: a', y :: b' => (x * y)%Qc :: products a' b' | _, _ => [] end.
Definition times (a b : list Qc) : option (list Qc) :=
  if length a =? length b then Some (products a b)
  else match a, b with
       | [x], _ => Some (map (fun y => (x * y)%Qc) b)
       | _, [y] => Some (map (fun x => (x * y)%Qc) a)
       | _, _ => None
       end.
(** EndfToCov.py:247 [np.reshape(cov, [n, n])]. *)
Fixpoint rows (k n : nat) (l : list Qc) : list (list Qc) :=
  match k with O => [] | S k' => firstn n l :: rows k' n (skipn n l) end.

(** EndfToCov.py:175-187, 223-249. *)
Definition read_matrix (ls : list text) : outcome :=
  if existsb (occurs error_text) ls then BoxrError
  else match header_lines 0 ls with
  | [] => NoBlocks
  | n0 :: n1 :: n2 :: n3 :: _ =>
      let bounds := block (lines_between (S n0) n1 ls) in
      let xsec := block (lines_between (S n1) n2 ls) in
      let rel := block (lines_between (S n2) n3 ls) in
      match times rel xsec with
      | None => BadShape
      | Some sdev =>
          let cov := block (lines_between (S n3) (length ls) ls) in
          let n := length xsec in
          if length cov =? n * n then Data bounds xsec sdev (rows n n cov) else BadShape
      end
  | _ => MissingBlock
  end.
