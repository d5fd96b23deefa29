(** Resonance parameters and their covariances as ENDF-6 text means them. *)
From Verif Require Import Num Text Dec Endf_Spec Intg_Spec Intg_Props Endf_Model Rcov_Model.
From Coq Require Import Permutation.
Local Open Scope list_scope.
Local Open Scope nat_scope.

(** The upper triangle of a matrix, row by row. *)
Definition listing (n : nat) (m : nat -> nat -> Qc) : list Qc := flat_map (fun i => map (m i) (seq i (n - i))) (seq 0 n).
(** A matrix known by its upper triangle, zeros elsewhere. *)
Definition upper_part (n : nat) (m m' : nat -> nat -> Qc) : Prop :=
  (forall i j, i <= j -> j < n -> m' i j = m i j) /\ (forall i j, j < i \/ n <= j -> m' i j = 0%Qc).

(** A LIST record. *)
Definition list_text (i j n : Z) (vs : list Qc) (ls : list text) : Prop :=
  exists l a b ls', ls = l :: ls' /\ control_line l a b i j (Z.of_nat (length vs)) n /\ rows number_field 6 vs ls'.
(** A table of the scattering radius if [nro] is not 0. *)
Definition radius_text (nro : Z) (ls : list text) : Prop :=
  (nro = 0%Z /\ ls = []) \/
  (nro <> 0%Z /\ exists l a b i j regions points lr lp, ls = l :: lr ++ lp /\
     control_line l a b i j (Z.of_nat (length regions)) (Z.of_nat (length points)) /\
     rows (pair_field integer_field) 3 regions lr /\ rows (pair_field number_field) 3 points lp).
(** The radius and a control line with the flag [flag] and the number [nls]. *)
Definition head_text (nro flag nls : Z) (ls : list text) : Prop :=
  exists rad l a b i n, ls = rad ++ [l] /\ radius_text nro rad /\ control_line l a b i flag nls n.

(** ** File 2 *)
(** The resonances of an l-value: l, the competitive flag, six numbers each. *)
Record wave := { w_l : Z; w_x : Z; w_res : list (list Qc) }.
Inductive waves_text : list wave -> list text -> Prop :=
| wt_nil : waves_text [] []
| wt_cons w ws l ls : list_text (w_l w) (w_x w) (Z.of_nat (length (w_res w))) (concat (w_res w)) l ->
    Forall (fun r => length r = 6) (w_res w) -> waves_text ws ls -> waves_text (w :: ws) (l ++ ls).

(** A row of the table: resonance [r] of an l-value; the competitive width is the rest of
    the total width, or 0 if the flag is not positive. *)
Definition f2_meant (fm : form) (e : wave * list Qc) (p : reson) : Prop :=
  let (w, r) := e in
  p = mkRes (nth 0 r 0%Qc) (w_l w) (nth 1 r 0%Qc)
        (skipn 2 r ++ match fm with
                      | Rm => []
                      | _ => [if (0 <? w_x w)%Z then (nth 2 r 0 - qsum (skipn 3 r))%Qc else 0%Qc]
                      end).

(** ** File 32 *)
(** Short-range covariances: parameters per resonance, resonances, matrix. *)
Record short := { s_mpar : nat; s_res : list (list Qc); s_cov : nat -> nat -> Qc }.
Definition s_size (b : short) : nat := s_mpar b * length (s_res b).
Inductive shorts_text : list short -> list text -> Prop :=
| sh_nil : shorts_text [] []
| sh_cons b bs l ls j : list_text (Z.of_nat (s_mpar b)) j (Z.of_nat (length (s_res b)))
      (concat (s_res b) ++ listing (s_size b) (s_cov b)) l ->
    Forall (fun r => length r = 6) (s_res b) -> shorts_text bs ls -> shorts_text (b :: bs) (l ++ ls).
(** The general format, up to the end of the short-range covariances. *)
Definition general_text (nro nlong : Z) (bs : list short) (ls : list text) : Prop :=
  exists nls h l a b i j body, ls = h ++ l :: body /\ head_text nro 1 nls h /\
    control_line l a b i j (Z.of_nat (length bs)) nlong /\ shorts_text bs body.

(** The compact format: numbers and their deviations, then the correlations. *)
Definition compact_text (nro : Z) (rs : list (list Qc * list Qc)) (corr : list text -> Prop) (ls : list text) : Prop :=
  exists nls h i j l c, ls = h ++ l ++ c /\ head_text nro 2 nls h /\
    list_text i j (Z.of_nat (length rs)) (concat (map (fun p => fst p ++ snd p) rs)) l /\
    Forall (fun p => length (fst p) = 6 /\ length (snd p) = 6) rs /\ corr c.
(** The deviations that count: those not 0; with Breit-Wigner always those of
    the energy, the neutron and the capture width. *)
Definition counting (rm : bool) (u : list Qc) : list Qc :=
  map snd (filter (fun p => negb (qeqb (snd p) 0%Qc) || (negb rm && existsb (Nat.eqb (fst p)) [0; 3; 4])) (combine (seq 0 (length u)) u)).

(** The compatible format with one l-value: eighteen numbers per resonance. *)
Inductive compat_texts : list (list (list Qc)) -> list text -> Prop :=
| ct_nil : compat_texts [] []
| ct_cons rs rss l ls i j : list_text i j (Z.of_nat (length rs)) (concat rs) l ->
    Forall (fun r => length r = 18) rs -> compat_texts rss ls -> compat_texts (rs :: rss) (l ++ ls).
Definition compat_text (nro : Z) (rss : list (list (list Qc))) (ls : list text) : Prop :=
  exists h body, ls = h ++ body /\ head_text nro 0 (Z.of_nat (length rss)) h /\ compat_texts rss body.
(** Where the numbers after the first six belong: of energy, neutron, capture and
    fission width (ENDF-102, 32.2.1: DE2, DN2, DNDG, DG2, DNDF, DGDF, DF2). *)
Definition meant_place (a b : nat) : option nat :=
  match a, b with
  | 0, 0 => Some 6 | 1, 1 => Some 7 | 1, 2 => Some 8 | 2, 2 => Some 9 | 1, 3 => Some 10 | 2, 3 => Some 11 | 3, 3 => Some 12
  | _, _ => None
  end.

(** ** Tables *)
(** A row of the table: a resonance [r] of File 32 (energy, spin, four widths), with the l
    and the competitive width of a resonance of File 2 of the same energy. *)
Definition joined (fm : form) (file2 : table) (r : list Qc) (p : reson) : Prop :=
  exists q, In q (map snd file2) /\ energy q = nth 0 r 0%Qc /\
    p = mkRes (nth 0 r 0%Qc) (lval q) (nth 1 r 0%Qc)
          (firstn 4 (skipn 2 r) ++ match fm with Rm => [] | _ => [nth 4 (widths q) 0%Qc] end).
(** The range read: its bounds, its table, numbered from 0, and File 2's. *)
Definition range_of (fm : form) (lo hi : option Qc) (lcomp : Z) (rs : list (list Qc)) (file2 : table) (r : range) : Prop :=
  r_form r = fm /\ r_min r = lo /\ r_max r = hi /\ r_lcomp r = lcomp /\ r_file2 r = file2 /\
  map fst (r_params r) = seq 0 (length rs) /\ Forall2 (joined fm file2) rs (map snd (r_params r)).
(** The same resonances in File 2 and File 32, in whatever order. *)
Definition same_energies (rs : list (list Qc)) (file2 : table) : Prop :=
  Permutation (map (fun r => nth 0 r 0%Qc) rs) (map energy (map snd file2)).

(** What a range of File 32 can say. *)
Inductive said :=
| Said_general (b : short)
| Said_compact (rs : list (list Qc * list Qc)) (npar : nat) (nd : Z) (nrow : nat) (xs : list iline)
| Said_compatible (rss : list (list (list Qc))) (rs : list (list Qc)).
Definition rm_flag (fm : form) : bool := match fm with Rm => true | _ => false end.
Definition all_counting (fm : form) (rs : list (list Qc * list Qc)) : list Qc := flat_map (fun p => counting (rm_flag fm) (snd p)) rs.
(** How it says so: one block and no long-range covariances; a deviation for every
    parameter; one l-value with resonances. *)
Definition said_text (fm : form) (nro : Z) (t : table) (d : said) (ls : list text) : Prop :=
  match d with
  | Said_general b => general_text nro 0 [b] ls /\ same_energies (s_res b) t /\ s_res b <> []
  | Said_compact rs npar nd nrow xs => compact_text nro rs (record npar nd nrow xs) ls /\ same_energies (map fst rs) t /\ rs <> [] /\
      length (all_counting fm rs) = npar
  | Said_compatible rss rs => compat_text nro rss ls /\ fm <> Rm /\ filter (fun l => negb (length l =? 0)) rss = [rs] /\ same_energies rs t
  end.
(** The range meant (but for the covariance of neutron and capture width in the
    compatible format, and INTG lines as in C37). *)
Definition said_range (fm : form) (lo hi : option Qc) (t : table) (d : said) (r : range) : Prop :=
  match d with
  | Said_general b => range_of fm lo hi 1 (s_res b) t r /\ r_mpar r = s_mpar b /\
      exists m, r_cov r = (s_mpar b * length (s_res b), m) /\ upper_part (s_mpar b * length (s_res b)) (s_cov b) m
  | Said_compact rs npar nd nrow xs => range_of fm lo hi 2 (map fst rs) t r /\ r_mpar r = npar / length rs /\
      exists m, r_cov r = (npar, m) /\ let u := all_counting fm rs in
      (forall i, m i i = (nth i u 0 * nth i u 0)%Qc) /\
      (forall i j, i <> j -> m i j = (nth i u 0 * observed nd xs (Nat.max i j) (Nat.min i j) * nth j u 0)%Qc) /\ (forall i j, m i j = m j i)
  | Said_compatible rss rs => range_of fm lo hi 0 (map (firstn 6) rs) t r /\ r_mpar r = 4 /\
      exists m, r_cov r = (4 * length rs, m) /\
      (forall k a b p, k < length rs -> a < 4 -> b < 4 -> (a, b) <> (1, 2) -> meant_place a b = Some p -> m (4 * k + a) (4 * k + b) = nth p (nth k rs []) 0%Qc) /\
      (forall k a b, k < length rs -> a < 4 -> b < 4 -> meant_place a b = None -> m (4 * k + a) (4 * k + b) = 0%Qc) /\
      (forall i j, i / 4 <> j / 4 -> m i j = 0%Qc)
  end.
Record stated := { t_form : form; t_lo : Qc; t_hi : Qc; t_file2 : table; t_said : said }.
Definition stated_range (d : stated) : range -> Prop := said_range (t_form d) (Some (t_lo d)) (Some (t_hi d)) (t_file2 d) (t_said d).

(** The ranges of an isotope, from number [j] of File 2's [res]. *)
Inductive ranges_text (res : list (option table)) : nat -> list stated -> list text -> Prop :=
| rg_nil j : ranges_text res j [] []
| rg_cons j h i lrf nro naps body d ds ls :
    control_line h (t_lo d) (t_hi d) i lrf nro naps -> i = 0%Z \/ i = 1%Z ->
    In (lrf, t_form d) [(1%Z, Slbw); (2%Z, Mlbw); (3%Z, Rm)] -> nth_error res j = Some (Some (t_file2 d)) ->
    said_text (t_form d) nro (t_file2 d) (t_said d) body ->
    ranges_text res (S j) ds ls -> ranges_text res j (d :: ds) (h :: body ++ ls).
(** The isotopes of a section. *)
Inductive isotopes_text (res : list (option table)) : list (list stated) -> list text -> Prop :=
| is_nil : isotopes_text res [] []
| is_cons h a b i j n ds dss l ls : control_line h a b i j (Z.of_nat (length ds)) n -> ranges_text res 0 ds l ->
    isotopes_text res dss ls -> isotopes_text res (ds :: dss) (h :: l ++ ls).

(** ** Draws *)
(** What varies: the energy and the partial widths. *)
Definition varying (fm : form) (p : reson) : list Qc := energy p :: match fm with Rm => widths p | _ => tl (widths p) end.
(** A complete row. *)
Definition complete (fm : form) (p : reson) : Prop := length (widths p) = match fm with Rm => 4 | _ => 5 end.
(** A row drawn from [p]: the first of what varies are the numbers [b], the rest is kept,
    and the total width is the sum of the partial ones. *)
Definition drawn (fm : form) (p : reson) (b : list Qc) (p' : reson) : Prop :=
  lval p' = lval p /\ spin p' = spin p /\ complete fm p' /\
  varying fm p' = b ++ skipn (length b) (varying fm p) /\
  (fm <> Rm -> hd 0%Qc (widths p') = qsum (tl (widths p'))).
