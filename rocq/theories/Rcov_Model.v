(** Covariances of resonance parameters: reading, subsets, sampling.
    Source: /repo/ASAPy/data/resonance_covariance.py:14-43, 72-128, 164-306,
    350-497, 583-708, and /repo/ASAPy/data/resonance.py:313-403, 574-662.
    Simplifications: exact rationals; radii and flags of File 2 that play no part
    are not kept; equal energies sort in their order (pandas' sort is not stable);
    a negative number of resonances ends the reading; [None] is an exception. *)
From Verif Require Import Num Text Endf_Model Intg_Model SampleCorr_Model.
Local Open Scope nat_scope.
Local Open Scope list_scope.

Local Notation "'do' x <- e ; k" :=
  (match e with Some x => k | None => None end) (at level 60, x pattern, e at level 59, k at level 60).

Inductive form := Slbw | Mlbw | Rm.
(** resonance_covariance.py:702-708; the keys 0 and 7 never get here (111-114). *)
Definition form_of (z : Z) : option form :=
  if (z =? 1)%Z then Some Slbw else if (z =? 2)%Z then Some Mlbw else if (z =? 3)%Z then Some Rm else None.
(** Whether the Reich-Moore class is meant, resonance_covariance.py:276. *)
Definition is_rm (fm : form) : bool := match fm with Rm => true | _ => false end.

(** A row of a table of resonances.  Widths: total, neutron, capture, fission,
    competitive; for Reich-Moore neutron, capture and two of fission
    (resonance.py:392-393 and 650-651). *)
Record reson := mkRes { energy : Qc; lval : Z; spin : Qc; widths : list Qc }.
(** A DataFrame: rows with their index labels. *)
Definition table := list (nat * reson).
(** [pd.DataFrame.from_records], resonance.py:394, 652 and resonance_covariance.py:485, 685. *)
Definition labelled (l : list reson) : table := combine (seq 0 (length l)) l.

(** The first exception of a list of computations. *)
Fixpoint all_some {A} (l : list (option A)) : option (list A) :=
  match l with
  | [] => Some []
  | o :: r => do a <- o; do b <- all_some r; Some (a :: b)
  end.

(** [l[a::k]]. *)
Definition stride (k a : nat) (l : list Qc) : list Qc :=
  map (fun i => nth (a + k * i) l 0%Qc) (seq 0 ((length l - a + (k - 1)) / k)).
(** The six columns [l[0::k]] ... [l[5::k]] put together row by row, as
    resonance_covariance.py:403-412, 426-431, 445-448, 639-648, 661-666, 674-677 and
    resonance.py:377-390, 638-647. *)
Definition six (k : nat) (l : list Qc) : option (list (list Qc)) :=
  all_some (map (fun i => all_some (map (fun a => nth_error (stride k a l) i) (seq 0 6))) (seq 0 (length (stride k 0 l)))).

(** ** File 2 *)
(** [r[i]]. *)
Definition fld (r : list Qc) (i : nat) : Qc := nth i r 0%Qc.
(** resonance.py:377-390 (Breit-Wigner) and 638-647 (Reich-Moore). *)
Definition f2_row (fm : form) (l competitive : Z) (r : list Qc) : reson :=
  mkRes (fld r 0) l (fld r 1)
    (match fm with
     | Rm => [fld r 2; fld r 3; fld r 4; fld r 5]
     | _ => [fld r 2; fld r 3; fld r 4; fld r 5;
             if (0 <? competitive)%Z then (fld r 2 - (fld r 3 + fld r 4 + fld r 5))%Qc else 0%Qc]
     end).
(** resonance.py:351-390 and 612-647. *)
Fixpoint f2_levels (fm : form) (n : nat) (f : file) : option (list reson * file) :=
  match n with
  | O => Some ([], f)
  | S k =>
      do (items, values, f') <- get_list_record f;
      do rs <- six 6 values;
      do (more, f'') <- f2_levels fm k f';
      Some (map (f2_row fm (l1 items) (l2 items)) rs ++ more, f'')
  end.
(** The energy-dependent scattering radius is read over: resonance.py:334-338,
    594-598; resonance_covariance.py:373-377, 608-612. *)
Definition radius (items : cont) (f : file) : option file :=
  if (n1 items =? 0)%Z then Some f
  else do (_, _, _, _, _, _, f') <- get_tab1_record f; Some f'.
(** resonance.py:313-403 and 574-662: the table of a range ([awri] is unbound
    without an l-value). *)
Definition file2_from_endf (fm : form) (items : cont) (f : file) : option (table * file) :=
  do f1 <- radius items f;
  do (it, f2) <- get_cont_record false f1;
  if (n1 it <=? 0)%Z then None
  else do (rows, f3) <- f2_levels fm (Z.to_nat (n1 it)) f2; Some (labelled rows, f3).

(** ** File 32 *)
(** Entries of an upper triangle before row [i]. *)
Fixpoint offset (n i : nat) : nat := match i with O => 0 | S k => n + offset (n - 1) k end.
(** [m = np.zeros([n, n]); m[np.triu_indices(n)] = vs]; one value fills all. *)
Definition triu (n : nat) (vs : list Qc) : option qmat :=
  let upper v := fun i j => if (i <=? j) && (j <? n) then v (offset n i + (j - i)) else 0%Qc in
  if length vs =? offset n n then Some (upper (fun p => nth p vs 0%Qc))
  else match vs with [v] => Some (upper (fun _ => v)) | _ => None end.

(** A square array, size first. *)
Definition matrix := (nat * qmat)%type.

(** resonance_covariance.py:396-418 and 632-654: one block of short-range covariances. *)
Definition block (f : file) : option (list (list Qc) * matrix * file) :=
  do (items, values, f') <- get_list_record f;
  let dim := (l1 items * n2 items)%Z in
  if (n2 items <? 0)%Z || (dim <? 0)%Z then None
  else
    let n := 6 * Z.to_nat (n2 items) in
    do rs <- six 6 (firstn n values);
    do m <- triu (Z.to_nat dim) (skipn n values);
    Some (rs, (Z.to_nat dim, m), f').
(** resonance_covariance.py:394-418 and 630-654.  The loop: all resonances, and the variable [cov] after it ([None]: unbound). *)
Fixpoint blocks (n : nat) (f : file) : option (list (list Qc) * option matrix * file) :=
  match n with
  | O => Some ([], None, f)
  | S k =>
      do (rs, m, f') <- block f;
      do (more, last, f'') <- blocks k f';
      Some (rs ++ more, match last with Some m' => Some m' | None => Some m end, f'')
  end.
(** resonance_covariance.py:386-418 and 621-654. *)
Definition general (f : file) : option (list (list Qc) * matrix * file) :=
  do (items, f1) <- get_cont_record false f;
  do (rs, last, f2) <- blocks (Z.to_nat (n1 items)) f1;
  do m <- last; Some (rs, m, f2).

(** resonance_covariance.py:434-443 and 669-672: the deviations of one resonance. *)
Definition nonzero (x : Qc) : list Qc := if qeqb x 0%Qc then [] else [x].
Definition deviations (fm : form) (u : list Qc) : option (list Qc) :=
  match fm with
  | Rm => Some (flat_map nonzero u)
  | _ => match u with
         | [a; b; c; d; e; g] => Some ([a] ++ nonzero b ++ nonzero c ++ [d; e] ++ nonzero g)
         | _ => None
         end
  end.
(** [np.diag(u).dot(corr).dot(np.diag(u))]. *)
Definition scale (u : list Qc) (m : qmat) : qmat := fun i j => (nth i u 0 * m i j * nth j u 0)%Qc.
(** resonance_covariance.py:422-451 and 658-680. *)
Definition compact (fm : form) (f : file) : option (list (list Qc) * matrix * file) :=
  do (items, values, f1) <- get_list_record f;
  do us <- all_some (map (fun i => deviations fm (firstn 6 (skipn (i * 12 + 6) values))) (seq 0 (Z.to_nat (n2 items))));
  do rs <- six 12 values;
  do (npar, corr, f2) <- get_intg_record f1;
  let u := concat us in
  if negb (length u =? npar) then None else Some (rs, (npar, scale u corr), f2).

(** [m[i, j] = v]; IndexError outside. *)
Definition put_at (i j : nat) (v : Qc) (m : matrix) : option matrix :=
  let (n, c) := m in
  if (i <? n) && (j <? n) then Some (n, fun a b => if (a =? i) && (b =? j) then v else c a b) else None.
(** resonance_covariance.py:461-479: resonance [j] of [n]; state: records, matrix, index. *)
Definition one_res (values : list Qc) (n j : nat) (s : list (list Qc) * matrix * nat) : option (list (list Qc) * matrix * nat) :=
  let '(recs, m, k) := s in
  let one := firstn 18 (skipn (18 * j) values) in
  let c := skipn 6 one in
  if length c <? 7 then None
  else
    do m <- put_at k k (fld c 0) m;
    do m <- put_at (k + 1) (k + 1) (fld c 1) m;
    do m <- put_at (k + 1) (k + 3) (fld c 4) m;
    do m <- put_at (k + 2) (k + 2) (fld c 3) m;
    do m <- put_at (k + 2) (k + 3) (fld c 5) m;
    do m <- put_at (k + 3) (k + 3) (fld c 6) m;
    Some (recs ++ [firstn 6 one], (if j <? n - 1 then (fst m + 4, snd m) else m), k + 4).
(** A loop over indices. *)
Fixpoint each {S} (l : list nat) (g : nat -> S -> option S) (s : S) : option S :=
  match l with [] => Some s | j :: r => do s' <- g j s; each r g s' end.
(** resonance_covariance.py:458-479, the loop over the l-values. *)
Fixpoint waves (n : nat) (f : file) (s : list (list Qc) * matrix * nat) : option (list (list Qc) * matrix * nat * file) :=
  match n with
  | O => Some (s, f)
  | S k =>
      do (items, values, f') <- get_list_record f;
      do s' <- each (seq 0 (Z.to_nat (n2 items))) (one_res values (Z.to_nat (n2 items))) s;
      waves k f' s'
  end.
(** resonance_covariance.py:454-479. *)
Definition compatible (nls : nat) (f : file) : option (list (list Qc) * matrix * file) :=
  do (recs, m, _, f') <- waves nls f ([], (4, fun _ _ => 0%Qc), 0);
  Some (recs, m, f').

(** resonance_covariance.py:14-43: both tables by energy, the columns L and
    competitiveWidth side by side, then back to the order of File 32. *)
Definition add_file2 (fm : form) (recs : list (list Qc)) (file2 : table) : option (list reson) :=
  if negb (length recs =? length file2) then None
  else
    let by_energy := isort energy (map snd file2) in
    let ranks := rank_col (map (fun r => fld r 0) recs) in
    Some (map (fun p =>
      let '(r, k) := p in
      let other := nth k by_energy (mkRes 0%Qc 0 0%Qc []) in
      mkRes (fld r 0) (lval other) (fld r 1)
        ([fld r 2; fld r 3; fld r 4; fld r 5] ++ (if is_rm fm then [] else [fld (widths other) 4]))) (combine recs ranks)).

Record range := mkRange { r_form : form; r_min : option Qc; r_max : option Qc;
  r_params : table; r_cov : matrix; r_mpar : nat; r_lcomp : Z; r_file2 : table }.

(** resonance_covariance.py:350-497 and 583-699. *)
Definition cov_from_endf (fm : form) (items : cont) (file2 : table) (f : file) : option (range * file) :=
  do f1 <- radius items f;
  do (it, f2) <- get_cont_record false f1;
  let lcomp := l2 it in
  do (recs, m, f3) <-
    (if (lcomp =? 1)%Z then general f2
     else if (lcomp =? 2)%Z then compact fm f2
     else if (lcomp =? 0)%Z && negb (is_rm fm) then compatible (Z.to_nat (n1 it)) f2
     else None);
  if length recs =? 0 then None (* division by zero *)
  else
    do ps <- add_file2 fm recs file2;
    Some (mkRange fm (c1 items) (c2 items) (labelled ps) m (fst m / length recs) lcomp file2, f3).

(** resonance_covariance.py:102-126, the loop over the ranges of an isotope, from
    number [j]; [res] are the ranges of File 2 ([None]: one without parameters). *)
Fixpoint cov_ranges (n j : nat) (res : list (option table)) (f : file) : option (list range * file) :=
  match n with
  | O => Some ([], f)
  | S k =>
      do (items, f1) <- get_cont_record false f;
      if (l2 items =? 0)%Z || (l2 items =? 7)%Z then None
      else if (l1 items =? 0)%Z || (l1 items =? 1)%Z then
        do fm <- form_of (l2 items);
        do t <- match nth_error res j with Some (Some t) => Some t | _ => None end;
        do (r, f2) <- cov_from_endf fm items t f1;
        do (rs, f3) <- cov_ranges k (S j) res f2;
        Some (r :: rs, f3)
      else cov_ranges k (S j) res f1
  end.
(** resonance_covariance.py:95-100. *)
Fixpoint cov_isotopes (n : nat) (res : list (option table)) (f : file) : option (list range) :=
  match n with
  | O => Some []
  | S k =>
      do (items, f1) <- get_cont_record false f;
      do (rs, f2) <- cov_ranges (Z.to_nat (n1 items)) 0 res f1;
      do more <- cov_isotopes k res f2;
      Some (rs ++ more)
  end.
(** resonance_covariance.py:72-128. *)
Definition covariances_from_endf (res : list (option table)) (f : file) : option (list range) :=
  do (_, _, _, _, n, _, f1) <- get_head_record f;
  cov_isotopes (Z.to_nat n) res f1.

(** ** Use *)
(** [cov[a, b]], resonance_covariance.py:204-205. *)
Definition entry (m : matrix) (a b : nat) : option Qc :=
  if (a <? fst m) && (b <? fst m) then Some (snd m a b) else None.
(** resonance_covariance.py:164-213; [c] is the column chosen. *)
Definition subset (c : reson -> Qc) (lo hi : Qc) (r : range) : option range :=
  let ps := filter (fun p => qleb lo (c (snd p)) && qleb (c (snd p)) hi) (r_file2 r) in
  let flat := flat_map (fun a => map (fun i => a * r_mpar r + i) (seq 0 (r_mpar r))) (map fst ps) in
  do vals <- all_some (flat_map (fun a => flat_map (fun b => if a <=? b then [entry (r_cov r) a b] else []) flat) flat);
  do m <- triu (length flat) vals;
  Some (mkRange (r_form r) (r_min r) (r_max r) ps (length flat, m) (r_mpar r) (r_lcomp r) ps).

(** resonance_covariance.py:245-247 and 277-279: the five columns that vary. *)
Definition varied (fm : form) (p : reson) : list Qc :=
  energy p :: (if is_rm fm then widths p else tl (widths p)).
(** resonance_covariance.py:238, cov + cov.T - np.diag(cov.diagonal()). *)
Definition symmetrized (m : qmat) : qmat := fun i j => (m i j + m j i - (if i =? j then m i i else 0))%Qc.

(** resonance_covariance.py:254-269 (Breit-Wigner) and 286-300 (Reich-Moore): the
    table of one sample; [ps] is the table sampled from. *)
Definition one_sample (fm : form) (mpar : nat) (ps : list reson) (s : list Qc) : option (list reson) :=
  if mpar =? 0 then None
  else
    let e := stride mpar 0 s in
    let gn := stride mpar 1 s in
    let gg := stride mpar 2 s in
    let w3 := if 3 <? mpar then stride mpar 3 s else map (fun p => fld (widths p) (if is_rm fm then 2 else 3)) ps in
    let w4 := if (if is_rm fm then 3 else 4) <? mpar then stride mpar 4 s
              else map (fun p => fld (widths p) (if is_rm fm then 3 else 4)) ps in
    all_some (map (fun j =>
      do p <- nth_error ps j;
      do x <- nth_error e j; do n <- nth_error gn j; do g <- nth_error gg j; do a <- nth_error w3 j; do b <- nth_error w4 j;
      Some (mkRes x (lval p) (spin p)
              (if is_rm fm then [n; g; a; b] else [(n + g + a + b)%Qc; n; g; a; b]))) (seq 0 (length e))).

(** resonance_covariance.py:215-306.  [mvn mean cov n] is NumPy's
    multivariate_normal, which raises when the sizes differ. *)
Definition sample (mvn : list Qc -> qmat -> nat -> list (list Qc)) (n : nat) (r : range) : option (list (list reson)) :=
  let ps := map snd (r_params r) in
  let mean := flat_map (fun p => firstn (r_mpar r) (varied (r_form r) p)) ps in
  if negb (length mean =? fst (r_cov r)) then None
  else all_some (map (one_sample (r_form r) (r_mpar r) ps) (mvn mean (symmetrized (snd (r_cov r))) n)).
