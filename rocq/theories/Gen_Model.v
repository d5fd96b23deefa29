(** The program that makes covariance stores.
    Source: /repo/ASAPy/EndfToCov.py:26-162 (_run_cover_chain, run_program), 287-347
    (run_cover_chain), 462-557 (the script), /repo/ASAPy/njoy.py:532-626 (names of tapes),
    /repo/boxer2mat/boxer2mat.f:46-48, 162 (reading requests).  Reading a matrix is
    Boxer_Model.v, writing to a store Store_Model.v, the decks are Njoy_Model.v.
    Simplifications: files consist of lines; the directory holds regular files only; the
    stores are kept apart from it and named without directories; programs are functions
    of the directory and their input, they end, and what they print is dropped; the
    evaluation is given by what the script reads of it; text of decks is an argument;
    the ENDF file is not in the output directory; of format strings only [{0}], [{{] and
    [}}] are understood, others count as errors. *)
From Coq Require Import ZArith NArith List Bool Arith Ascii String.
From Verif Require Import Text Dec PyNum Boxer_Model Name_Model.
From Verif Require Store_Model Njoy_Model.
Import ListNotations.
Local Open Scope string_scope.
Local Open Scope list_scope.

(** *** Files by name *)
Definition file := list text.
Section Named.
Context {A : Type}.
Fixpoint look (k : text) (d : list (text * A)) : option A :=
  match d with [] => None | (k', f) :: r => if eqt k k' then Some f else look k r end.
Definition remove (k : text) (d : list (text * A)) : list (text * A) := filter (fun e => negb (eqt k (fst e))) d.
Definition save (k : text) (f : A) (d : list (text * A)) : list (text * A) := (k, f) :: remove k d.
End Named.
Definition dir := list (text * file).

(** *** Programs *)
(** Exit code and directory afterwards; [None]: it cannot be started. *)
Definition program := dir -> file -> option (Z * dir).
Inductive error := NoFile (n : text) | NoProgram | Failed (c : Z).
Definition effect := dir -> dir * option error.
(** An exception ends a sequence. *)
Definition andthen (f g : effect) : effect := fun d => match f d with (d', None) => g d' | r => r end.
Fixpoint each {A} (f : A -> effect) (l : list A) : effect :=
  fun d => match l with [] => (d, None) | x :: r => andthen (f x) (each f r) d end.
(** shutil.copy, shutil.move. *)
Definition copy (a b : text) : effect := fun d => match look a d with Some f => (save b f d, None) | None => (d, Some (NoFile a)) end.
Definition move (a b : text) : effect := fun d => match look a d with Some f => (save b f (remove a d), None) | None => (d, Some (NoFile a)) end.
(** EndfToCov.py:80-83. *)
Definition copy_if (a b : text) : effect := fun d => match look a d with Some f => (save b f d, None) | None => (d, None) end.
(** EndfToCov.py:109-162: the input is added to a log file first. *)
Definition run_program (p : program) (commands : file) (log : text) : effect := fun d =>
  let d := save log (match look log d with Some l => l | None => [] end ++ commands ++ [[nl]]) d in
  match p d commands with
  | None => (d, Some NoProgram)
  | Some (c, d') => (d', if Z.eqb c 0 then None else Some (Failed c))
  end.

(** *** The chain *)
Definition tape (n : nat) : text := str "tape" ++ decN (N.of_nat n).
Definition fort20 : text := str "fort.20".
Definition fort21 : text := str "fort.21".
Definition log1 : text := str "testing_chain.txt".
Definition log2 : text := str "testing_chain.txtboxer.txt".
(** EndfToCov.py:26-31, 99-102. *)
Definition comma : ascii := ","%char.
Definition request_line (i mat mt : Z) : text :=
  decZ i ++ comma :: decZ mat ++ comma :: decZ mt ++ comma :: decZ mat ++ comma :: decZ mt ++ [nl].
Definition request (mat mt : Z) : file := map (fun i => request_line i mat mt) [0; 1; 2; 3]%Z ++ [str "0,0" ++ [nl]].
Definition asked (mt : Z) : Z := if Z.eqb mt 1018 then 18 else mt.
(** EndfToCov.py:106, 350. *)
Definition matrix_name (name : text) (mt : Z) : text := name ++ str "_" ++ decZ mt ++ str "_matrix.txt".
(** EndfToCov.py:88-106: one tape and MT. *)
Definition convert (boxer : program) (mat : Z) (x : nat * text * Z) : effect :=
  let '(n, name, mt) := x in
  andthen (copy (tape n) fort20) (andthen (run_program boxer (request mat (asked mt)) log2) (move fort21 (matrix_name name mt))).
(** EndfToCov.py:33-106 with use_temp_folder=False. *)
Definition cover_chain (njoy boxer : program) (deck endf : file) (tapeout covers : list (nat * text)) (mat : Z) (mts : list Z) : effect :=
  andthen (fun d => (save (tape 20) endf d, None))
  (andthen (run_program njoy deck log1)
  (andthen (copy (str "output") (str "njoy_output.txt"))
  (andthen (each (fun t => copy_if (tape (fst t)) (snd t)) tapeout)
  (each (convert boxer mat) (flat_map (fun t => map (fun mt => (t, mt)) mts) covers))))).

(** njoy.py:532-626 with one temperature and MTs to plot: names of the output tapes.
    Njoy_Model.v has the same units. *)
Definition tapeout (temp : Z) (nu chi : bool) : list (nat * text) :=
  let name (s e : string) := str s ++ str "_" ++ decZ temp ++ str e in
  [(25, name "covr" ".txt"); (27, name "viewr" ".eps")] ++
  (if nu then [(32, name "covr_nu" ".txt"); (31, name "viewr_nu" ".eps")] else []) ++
  (if chi then let k := if nu then 4 else 0 in [(32 + k, name "covr_chi" ".txt"); (31 + k, name "viewr_chi" ".eps")] else []).
(** EndfToCov.py:315-346: which MTs are converted, from which tapes. *)
Definition converted (mts : list Z) (nu chi : bool) : list Z :=
  mts ++ (if chi && negb (existsb (Z.eqb 18) mts) then [18%Z] else []) ++ (if nu then [452%Z] else []) ++ (if chi then [1018%Z] else []).
Definition run_cover_chain (njoy boxer : program) (deck endf : file) (temp mat : Z) (mts : list Z) (nu chi : bool) : effect :=
  cover_chain njoy boxer deck endf (tapeout temp nu chi) (Njoy_Model.every_other (tapeout temp nu chi)) mat (converted mts nu chi).

(** *** The script *)
(** What is read of the evaluation: the target's numbers, sections present. *)
Record evaluation := { e_z : Z; e_a : Z; e_isomer : Z; e_fissionable : bool; e_mat : Z; e_sections : list (Z * Z) }.
(** Options ([o_mts] empty: not given). *)
Record options := { o_mts : list Z; o_temp : Z; o_store : option text }.
(** EndfToCov.py:477: [int("{0}{1}".format(z, str(a).zfill(3)))]; [None]: ValueError. *)
Definition zfill3 (t : text) : text := repeat "0"%char (3 - List.length t) ++ t.
Definition zaid (e : evaluation) : option Z := py_int (decZ (e_z e) ++ zfill3 (decZ (e_a e))).
(** EndfToCov.py:480-500. *)
Definition available (e : evaluation) : list Z := map snd (filter (fun r => Z.eqb (fst r) 33) (e_sections e)).
Definition selected (o : options) (e : evaluation) : option (list Z) :=
  match o_mts o with
  | [] => Some (available e)
  | l => if forallb (fun m => existsb (Z.eqb m) (available e)) l then Some l else None
  end.
(** [format.format(groups)]. *)
Fixpoint format (g t : text) : option text :=
  match t with
  | [] => Some []
  | c :: r =>
      if eqc c "{" then
        match r with
        | c2 :: r2 =>
            if eqc c2 "{" then option_map (cons "{"%char) (format g r2)
            else match r2 with
                 | c3 :: r3 => if eqc c2 "0" && eqc c3 "}" then option_map (app g) (format g r3) else None
                 | [] => None
                 end
        | [] => None
        end
      else if eqc c "}" then
        match r with
        | c2 :: r2 => if eqc c2 "}" then option_map (cons "}"%char) (format g r2) else None
        | [] => None
        end
      else option_map (cons c) (format g r)
  end.
(** EndfToCov.py:503-506; [None]: KeyError for the symbol. *)
Definition store_format (o : options) (e : evaluation) : option text :=
  match o_store o with
  | Some n => Some (n ++ str "{0}g.h5")
  | None => option_map (fun s => s ++ decZ (e_a e) ++ str "_{0}g.h5") (symbol (e_z e))
  end.

Definition stores := list (text * Store_Model.store).
(** How the script ends. *)
Inductive ending := Finished | NoZaid | NoCovariances | NotAvailable | NoSymbol | Chain (e : error) | NoMatrix (n : text) | BadName | NotStored.
(** EndfToCov.py:350-395 with the choice of the store; [known] tells whether a reaction has
    a name. *)
Definition store_one (known : Z -> bool) (fmt : text) (zaid : text) (d : dir) (x : Z * text) (s : stores) : stores * ending :=
  let (mt, name) := x in
  match look (matrix_name name mt) d with
  | None => (s, NoMatrix (matrix_name name mt))
  | Some ls =>
      match read_matrix ls with
      | Data _ _ _ cov =>
          match format (decN (N.of_nat (List.length cov))) fmt with
          | None => (s, BadName)
          | Some f =>
              let old := match look f s with Some s0 => s0 | None => [] end in
              let (new, e) := Store_Model.process old zaid mt (known mt) ls in
              (save f new s, match e with Store_Model.Raised => NotStored | _ => Finished end)
          end
      | _ => (s, match snd (Store_Model.process [] zaid mt (known mt) ls) with Store_Model.Raised => NotStored | _ => Finished end)
      end
  end.
Fixpoint store_all (known : Z -> bool) (fmt zaid : text) (d : dir) (l : list (Z * text)) (s : stores) : stores * ending :=
  match l with
  | [] => (s, Finished)
  | x :: r => match store_one known fmt zaid d x s with (s', Finished) => store_all known fmt zaid d r s' | e => e end
  end.
(** EndfToCov.py:547-557: reactions and the tapes they are taken from. *)
Definition kept (temp : Z) (mts : list Z) (nu chi : bool) : list (Z * text) :=
  let name (s : string) := str s ++ str "_" ++ decZ temp ++ str ".txt" in
  map (fun mt => (mt, name "covr")) mts ++ (if nu then [(452%Z, name "covr_nu")] else []) ++ (if chi then [(1018%Z, name "covr_chi")] else []).
(** EndfToCov.py:462-557. *)
Definition generate (njoy boxer : program) (known : Z -> bool) (deck endf : file) (o : options) (e : evaluation) (d : dir) (s : stores) : dir * stores * ending :=
  match zaid e with
  | None => (d, s, NoZaid)
  | Some za =>
      match available e with
      | [] => (d, s, NoCovariances)
      | _ =>
          match selected o e with
          | None => (d, s, NotAvailable)
          | Some mts =>
              match store_format o e with
              | None => (d, s, NoSymbol)
              | Some fmt =>
                  match run_cover_chain njoy boxer deck endf (o_temp o) (e_mat e) mts (e_fissionable e) (e_fissionable e) d with
                  | (d', Some x) => (d', s, Chain x)
                  | (d', None) =>
                      let (s', r) := store_all known fmt (decZ za) d' (kept (o_temp o) mts (e_fissionable e) (e_fissionable e)) s in (d', s', r)
                  end
              end
          end
      end
  end.

(** *** Requests as BOXER reads them *)
(** FORMAT (5I6), boxer2mat.f:162: a field ends after six characters or at a comma, which
    is skipped; a missing field is 0. *)
Fixpoint field (w : nat) (t : text) : text * text :=
  match w, t with
  | O, _ => ([], t)
  | _, [] => ([], [])
  | S k, c :: r => if eqc c comma then ([], r) else let (a, b) := field k r in (c :: a, b)
  end.
(** Blanks are null; [None]: a run-time error. *)
Definition integer (t : text) : option Z := if forallb (eqc sp) t then Some 0%Z else py_int t.
Fixpoint fields (k : nat) (t : text) : option (list Z) :=
  match k with
  | O => Some []
  | S j => let (a, r) := field 6 t in
           match integer a, fields j r with Some z, Some l => Some (z :: l) | _, _ => None end
  end.
(** One line without its end. *)
Definition read_request (l : text) : option (list Z) := fields 5 (filter (fun c => negb (eqc c nl)) l).
