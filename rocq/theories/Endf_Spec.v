(** What ENDF-6 text means, independently of how it is read. *)
From Verif Require Import Num Text Dec.
Local Open Scope list_scope.
Local Open Scope nat_scope.

(** ** Numbers *)
(** [ds] is a decimal numeral (leading zeros allowed) of [m]. *)
Definition numeral (ds : text) (m : N) : Prop := exists k, ds = repeat "0"%char k ++ decN m.
(** An optional sign, and whether it is a minus. *)
Definition sign_text (s : option bool) : text :=
  match s with None => [] | Some true => ["-"%char] | Some false => ["+"%char] end.
Definition minus (s : option bool) : bool := match s with Some b => b | None => false end.
(** (+-m) 10^(-f) 10^(+-e). *)
Definition value (neg : bool) (m : N) (f : nat) (eneg : bool) (e : N) : Qc :=
  let mz := if neg then (- Z.of_N m)%Z else Z.of_N m in
  let ez := if eneg then (- Z.of_N e)%Z else Z.of_N e in
  Q2Qc ((mz # 1) * Qpower (10 # 1) (ez - Z.of_nat f))%Q.

(** Numbers as they appear in fields: blanks, sign, digits with a point, an
    exponent, blanks. *)
Inductive denotes : text -> Qc -> Prop :=
| den_eless a b s ip fp m en es e :   (* -1.23481+10 *)
    numeral (ip ++ fp) m -> fp <> [] -> numeral es e ->
    denotes (repeat sp a ++ (sign_text s ++ ip ++ "."%char :: fp ++ sign_text (Some en) ++ es) ++ repeat sp b)
            (value (minus s) m (length fp) en e)
| den_letter a b s ip fp m (up : bool) es en e :   (* -1.23481E+10 *)
    numeral (ip ++ fp) m -> numeral es e ->
    denotes (repeat sp a ++ (sign_text s ++ ip ++ "."%char :: fp ++ (if up then "E" else "e")%char :: sign_text en ++ es) ++ repeat sp b)
            (value (minus s) m (length fp) (minus en) e)
| den_plain a b s ip fp m :   (* -123.481 *)
    numeral (ip ++ fp) m ->
    denotes (repeat sp a ++ (sign_text s ++ ip ++ "."%char :: fp) ++ repeat sp b) (value (minus s) m (length fp) false 0)
| den_integer a b s ip m :   (* -123 *)
    numeral ip m ->
    denotes (repeat sp a ++ (sign_text s ++ ip) ++ repeat sp b) (value (minus s) m 0 false 0).

(** ** Records *)
(** A field of eleven characters holding a number, an integer. *)
Definition number_field (t : text) (x : Qc) : Prop := length t = 11 /\ denotes t x.
Definition integer_field (t : text) (z : Z) : Prop := length t = 11 /\ exists a b, t = repeat sp a ++ decZ z ++ repeat sp b.

(** A line of two numbers and four integers, followed by anything. *)
Definition control_line (l : text) (a b : Qc) (i j k n : Z) : Prop :=
  exists ta tb ti tj tk tn tail, l = ta ++ tb ++ ti ++ tj ++ tk ++ tn ++ tail /\
    number_field ta a /\ number_field tb b /\
    integer_field ti i /\ integer_field tj j /\ integer_field tk k /\ integer_field tn n.

(** Values laid out [per] to a line in fields, all lines full but the last. *)
Inductive rows {A} (fld : text -> A -> Prop) (per : nat) : list A -> list text -> Prop :=
| rows_none : rows fld per [] []
| rows_last vs ts tail : vs <> [] -> length vs <= per -> Forall2 fld ts vs ->
    rows fld per vs [concat ts ++ tail]
| rows_more vs ts tail ws ls : length vs = per -> ws <> [] -> Forall2 fld ts vs -> rows fld per ws ls ->
    rows fld per (vs ++ ws) ((concat ts ++ tail) :: ls).

(** Pairs of equal fields. *)
Definition pair_field {A} (fld : text -> A -> Prop) (t : text) (p : A * A) : Prop :=
  exists t1 t2, t = t1 ++ t2 /\ fld t1 (fst p) /\ fld t2 (snd p).

(** ** Materials *)
(** A line carrying material, file and section numbers in columns 67-75 and
    ending with its only newline. *)
Definition tagged (mat mf mt : Z) (l : text) : Prop :=
  exists body tail, l = body ++ pad 4 (decZ mat) ++ pad 2 (decZ mf) ++ pad 3 (decZ mt) ++ tail ++ [nl] /\
    length body = 66 /\ length (decZ mat) <= 4 /\ length (decZ mf) <= 2 /\ length (decZ mt) <= 3 /\
    ~ In nl body /\ ~ In nl tail.

Record sect := { s_mf : Z; s_mt : Z; s_lines : list text }.
(** A section, its SEND line and possibly FEND lines. *)
Definition sect_text (mat : Z) (s : sect) (ls : list text) : Prop :=
  exists send fends, ls = s_lines s ++ send :: fends /\
    (0 < s_mt s)%Z /\ s_lines s <> [] /\ (forall l, In l (s_lines s) -> tagged mat (s_mf s) (s_mt s) l) /\
    tagged mat (s_mf s) 0 send /\ (forall l, In l fends -> tagged mat 0 0 l).
Inductive sect_texts (mat : Z) : list sect -> list text -> Prop :=
| st_nil : sect_texts mat [] []
| st_cons s ss l ls : sect_text mat s l -> sect_texts mat ss ls -> sect_texts mat (s :: ss) (l ++ ls).

(** A material: possibly a tape head, the sections, the MEND line. *)
Definition material_text (mat : Z) (ss : list sect) (ls : list text) : Prop :=
  exists pre body mend mt_, ls = pre ++ body ++ [mend] /\
    (0 < mat)%Z /\ ss <> [] /\ (forall s, In s ss -> s_mf s <> 0%Z) /\
    (forall l, In l pre -> exists m0 t0, (0 <= m0)%Z /\ tagged m0 0 t0 l) /\
    sect_texts mat ss body /\ tagged 0 0 mt_ mend.
(** No two sections of the same name. *)
Definition no_repeat (ss : list sect) : Prop := NoDup (map (fun s => (s_mf s, s_mt s)) ss).
(** The last of its name. *)
Definition last_named (s : sect) (ss : list sect) : Prop :=
  exists a b, ss = a ++ s :: b /\ forall s', In s' b -> (s_mf s', s_mt s') <> (s_mf s, s_mt s).

(** The descriptive section (1, 451): four control lines, [nwd] lines of text,
    one line per entry of the directory, possibly more. *)
Definition directory_line (l : text) (e : Z * Z * Z * Z) : Prop :=
  let '(mf, mt, nc, md) := e in
  exists blank ti tj tk tn tail, l = blank ++ ti ++ tj ++ tk ++ tn ++ tail /\ length blank = 22 /\
    integer_field ti mf /\ integer_field tj mt /\ integer_field tk nc /\
    (integer_field tn md \/ (tn = repeat sp 11 /\ md = 0%Z)).

Record descriptive := {
  d_za : Z; d_awr : Qc; d_lrp : Z; d_lfi : Z; d_nlib : Z; d_nmod : Z;
  d_elis : Qc; d_sta : Qc; d_lis : Z; d_liso : Z;
  d_awi : Qc; d_emax : Qc; d_lrel : Z; d_nsub : Z; d_nver : Z;
  d_temp : Qc; d_ldrv : Z; d_texts : list text; d_dir : list (Z * Z * Z * Z) }.
Definition descriptive_lines (d : descriptive) (ls : list text) : Prop :=
  exists h k1 k2 k3 txt dir extra za x1 j2 q z,
    ls = h :: k1 :: k2 :: k3 :: txt ++ dir ++ extra /\
    control_line h za (d_awr d) (d_lrp d) (d_lfi d) (d_nlib d) (d_nmod d) /\ za = qz (d_za d) /\
    control_line k1 (d_elis d) (d_sta d) (d_lis d) (d_liso d) x1 6 /\
    control_line k2 (d_awi d) (d_emax d) (d_lrel d) j2 (d_nsub d) (d_nver d) /\
    control_line k3 (d_temp d) q (d_ldrv d) z (Z.of_nat (length txt)) (Z.of_nat (length dir)) /\
    d_texts d = map (firstn 66) txt /\ Forall2 directory_line dir (d_dir d).

(** ENDF-102, appendix: the libraries by number. *)
Definition libraries : list (Z * text) :=
  [(0, str "ENDF/B"); (1, str "ENDF/A"); (2, str "JEFF"); (3, str "EFF"); (4, str "ENDF/B High Energy"); (5, str "CENDL");
   (6, str "JENDL"); (31, str "INDL/V"); (32, str "INDL/A"); (33, str "FENDL"); (34, str "IRDF"); (35, str "BROND");
   (36, str "INGDB-90"); (37, str "FENDL/A"); (41, str "BROND")]%Z.
Definition library_name (n : Z) (t : text) : Prop :=
  In (n, t) libraries \/ (~ In n (map fst libraries) /\ t = str "Unknown").

(** A tape: materials, then a line with material number -1. *)
Record mater := { m_mat : Z; m_sects : list sect; m_desc : descriptive }.
Definition mater_text (m : mater) (ls : list text) : Prop :=
  material_text (m_mat m) (m_sects m) ls /\ no_repeat (m_sects m) /\
  exists s, In s (m_sects m) /\ s_mf s = 1%Z /\ s_mt s = 451%Z /\ descriptive_lines (m_desc m) (s_lines s).
Inductive tape : list mater -> list text -> Prop :=
| tape_end tend rest : tagged (-1) 0 0 tend -> tape [] (tend :: rest)
| tape_more m ms l ls : mater_text m l -> tape ms ls -> tape (m :: ms) (l ++ ls).
