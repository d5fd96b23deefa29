(** Angular distributions: from ACE and ENDF, to HDF5 and back.
    Source: /repo/ASAPy/data/angle_distribution.py;
            /repo/ASAPy/data/univariate.py (Uniform, Tabular, Legendre).
    Simplifications: exact rationals; locations in XSS are natural numbers (they are at
    least 1 in a table); a distribution holds as many x, p and c as each other; arrays
    come back from HDF5 as written. *)
From Coq Require Import ZArith QArith Qcanon List Bool Arith.
From Verif Require Import Num Cont_Model.
From Verif Require Endf_Model.
Import ListNotations.
Local Open Scope nat_scope.

Local Notation "'do' x <- e ; k" :=
  (match e with Some x => k | None => None end) (at level 60, x pattern, e at level 59, k at level 60).

(** The distributions of a cosine: univariate.py:114 (Uniform), 312 (Tabular, with the
    [c] attached by the readers of ACE and HDF5; [Bare]: without it), 408 (Legendre: the
    coefficients of the numpy polynomial). *)
Inductive mu :=
| Unif (a b : Qc)
| Tab (i : scheme) (l : list point)
| Bare (i : scheme) (l : list (Qc * Qc))
| Leg (c : list Qc).

(** univariate.py:441-447, 435-439: the setter and the getter of Legendre.coefficients; [l] is the
    order of the first. *)
Fixpoint legendre_set (l : Z) (cs : list Qc) : list Qc :=
  match cs with [] => [] | c :: r => (qz (2 * l + 1) / qz 2 * c)%Qc :: legendre_set (l + 1) r end.
Fixpoint legendre_get (l : Z) (cs : list Qc) : list Qc :=
  match cs with [] => [] | c :: r => (qz 2 / qz (2 * l + 1) * c)%Qc :: legendre_get (l + 1) r end.
(** univariate.py:426-447; numpy refuses a polynomial without coefficients. *)
Definition legendre (cs : list Qc) : option mu := match cs with [] => None | _ => Some (Leg (legendre_set 0 cs)) end.
Definition coefficients (m : mu) : option (list Qc) := match m with Leg c => Some (legendre_get 0 c) | _ => None end.

(** ** ACE *)
(** [ace.xss[i]] and [ace.xss[a:a+n]]: angle_distribution.py:167, 171. *)
Definition word (xss : list Qc) (i : nat) : option Qc := nth_error xss i.
Definition cut (xss : list Qc) (a n : nat) : list Qc := firstn n (skipn a xss).
(** Python's [int] of a float and numpy's [astype(int)]: angle_distribution.py:167, 175. *)
Definition int (q : Qc) : Z := Endf_Model.trunc q.
(** Three rows as points: angle_distribution.py:188-189, 198-199. *)
Fixpoint points (x p c : list Qc) : list point :=
  match x, p, c with a :: x', b :: p', d :: c' => (a, b, d) :: points x' p' c' | _, _, _ => [] end.
(** angle_distribution.py:184-185: [1.0/(32.0*np.diff(cos))] and a final zero. *)
Fixpoint bin_pdf (cos : list Qc) : list Qc :=
  match cos with
  | a :: ((b :: _) as r) => (1 / (qz 32 * (b - a)))%Qc :: bin_pdf r
  | _ => [0%Qc]
  end.
(** angle_distribution.py:186: [np.linspace(0.0, 1.0, 33)]. *)
Definition bin_cdf : list Qc := map (fun i => (qz (Z.of_nat i) / qz 32)%Qc) (seq 0 33).
(** angle_distribution.py:180-204: one distribution with locator [lc].  Simplifications: a
    table ending inside the 33 cosines or a negative number of points is [None] (numpy
    spreads a single difference); equal cosines give 0 instead of infinity. *)
Definition read_mu (xss : list Qc) (ld : nat) (lc : Z) : option mu :=
  let idx := ld + Z.to_nat (Z.abs lc) - 1 in
  if (0 <? lc)%Z then
    let cos := cut xss idx 33 in
    if length cos =? 33 then Some (Tab Histogram (points cos (bin_pdf cos) bin_cdf)) else None
  else if (lc <? 0)%Z then
    do w <- word xss idx;
    do k <- word xss (idx + 1);
    if (int k <? 0)%Z then None
    else
      let n := Z.to_nat (int k) in
      let data := cut xss (idx + 2) (3 * n) in
      if length data =? 3 * n then
        let l := points (firstn n data) (firstn n (skipn n data)) (skipn (2 * n) data) in
        if (int w <? 0)%Z then None
        else do s <- scheme_at (Z.to_nat (int w)); if nonneg l then Some (Tab s l) else None
      else None
  else Some (Unif (- (1)) 1).
(** angle_distribution.py:178-179: the loop over the locators. *)
Fixpoint read_mus (xss : list Qc) (ld : nat) (n : nat) (lcs : list Z) : option (list mu) :=
  match n with
  | O => Some []
  | S k => match lcs with
           | [] => None (* IndexError *)
           | lc :: r => do m <- read_mu xss ld lc; do ms <- read_mus xss ld k r; Some (m :: ms)
           end
  end.
(** angle_distribution.py:142-206; [ev] is EV_PER_MEV.  Simplification: a negative
    number of energies counts as zero. *)
Definition from_ace (ev : Qc) (xss : list Qc) (ld ls : nat) : option (list Qc * list mu) :=
  let idx := ld + ls - 1 in
  do w <- word xss idx;
  let n := Z.to_nat (int w) in
  let energy := map (fun e => (e * ev)%Qc) (cut xss (idx + 1) n) in
  let lc := map int (cut xss (idx + 1 + n) n) in
  do ms <- read_mus xss ld n lc;
  Some (energy, ms).

(** ** HDF5 *)
(** angle_distribution.py:73-75 with univariate.py:159-163: as a table; [None]: an
    exception (no [to_tabular], no [c], a zero width or a negative density). *)
Definition tabular (m : mu) : option (scheme * list point) :=
  match m with
  | Tab i l => Some (i, l)
  | Unif a b => if qltb a b then let p := (1 / (b - a))%Qc in Some (Histogram, [(a, p, 0%Qc); (b, p, 1%Qc)]) else None
  | Bare _ _ | Leg _ => None
  end.
Fixpoint tabulars (ms : list mu) : option (list (scheme * list point)) :=
  match ms with
  | [] => Some []
  | m :: r => do t <- tabular m; do ts <- tabulars r; Some (t :: ts)
  end.
(** angle_distribution.py:84-94: the running offset. *)
Fixpoint offsets_from (j : nat) (ts : list (scheme * list point)) : list nat :=
  match ts with [] => [] | t :: r => j :: offsets_from (j + length (snd t)) r end.
(** angle_distribution.py:71, 97-101: what the group holds: the energies and, if it came to that, the dataset of cosines
    with its attributes. *)
Record group := mkGroup { g_energy : list Qc; g_mu : option (list point * list nat * list nat) }.
(** angle_distribution.py:61-101; [false]: an exception escaped. *)
Definition to_hdf5 (energy : list Qc) (ms : list mu) : group * bool :=
  match tabulars ms with
  | Some ts => (mkGroup energy (Some (flat_map snd ts, offsets_from 0 ts, map (fun t => code (fst t)) ts)), true)
  | None => (mkGroup energy None, false)
  end.
(** angle_distribution.py:125-138: one turn of the loop. *)
Definition turn (pairs : list point) (offs codes : list nat) (i n_energy : nat) : option mu :=
  do j <- nth_error offs i;
  do e <- (if i <? n_energy - 1 then nth_error offs (i + 1) else Some (length pairs));
  do k <- nth_error codes i;
  do s <- scheme_at k;
  let l := slice pairs j e in
  if nonneg l then Some (Tab s l) else None.
Fixpoint turns (pairs : list point) (offs codes : list nat) (is : list nat) (n_energy : nat) : option (list mu) :=
  match is with
  | [] => Some []
  | i :: r => do m <- turn pairs offs codes i n_energy; do ms <- turns pairs offs codes r n_energy; Some (m :: ms)
  end.
(** angle_distribution.py:103-140. *)
Definition from_hdf5 (g : group) : option (list Qc * list mu) :=
  do (p, offs, codes) <- g_mu g;
  let n := length (g_energy g) in
  do ms <- turns p offs codes (seq 0 n) n;
  Some (g_energy g, ms).

(** ** ENDF *)
(** angle_distribution.py:258-263, 288-293: [n] LIST records of Legendre coefficients. *)
Fixpoint read_legendre (n : nat) (f : Endf_Model.file) : option (list Qc * list mu * Endf_Model.file) :=
  match n with
  | O => Some ([], [], f)
  | S k => do (items, al, f1) <- Endf_Model.get_list_record f;
           do e <- Endf_Model.c2 items;
           do m <- legendre (1%Qc :: al);
           do (es, ms, f2) <- read_legendre k f1;
           Some (e :: es, m :: ms, f2)
  end.
(** angle_distribution.py:272-279, 299-306: [n] TAB1 records. *)
Fixpoint read_tables (n : nat) (f : Endf_Model.file) : option (list Qc * list mu * Endf_Model.file) :=
  match n with
  | O => Some ([], [], f)
  | S k => do (_, e, _, _, regions, pts, f1) <- Endf_Model.get_tab1_record f;
           do s <- match regions with
                   | [(_, s)] => if (s <? 0)%Z then None else scheme_at (Z.to_nat s)
                   | _ => None (* several regions: NotImplementedError; none: IndexError *)
                   end;
           if forallb (fun t => qleb 0 (snd t)) pts then
             do (es, ms, f2) <- read_tables k f1; Some (e :: es, Bare s pts :: ms, f2)
           else None
  end.
(** angle_distribution.py:208-310 from the lines of the section; [emax] is the maximum
    energy of the evaluation.  The final [None]: no branch is taken and [energy] is
    unbound. *)
Definition from_endf (emax : Qc) (f : Endf_Model.file) : option (list Qc * list mu) :=
  do (_, _, lvt, ltt, _, _, f1) <- Endf_Model.get_head_record f;
  do (items, f2) <- Endf_Model.get_cont_record false f1;
  let li := Endf_Model.l1 items in
  let nk := Endf_Model.n1 items in
  let f3 := if (0 <? lvt)%Z then skipn (Z.to_nat ((nk + 5) / 6)) f2 else f2 in
  if ((ltt =? 0) && (li =? 1))%Z then Some ([0%Qc; emax], [Unif (- (1)) 1; Unif (- (1)) 1])
  else if ((ltt =? 1) && (li =? 0))%Z then
    do (ps, _, f4) <- Endf_Model.get_tab2_record f3;
    if (Endf_Model.n2 ps <? 0)%Z then None
    else do (es, ms, _) <- read_legendre (Z.to_nat (Endf_Model.n2 ps)) f4; Some (es, ms)
  else if ((ltt =? 2) && (li =? 0))%Z then
    do (ps, _, f4) <- Endf_Model.get_tab2_record f3;
    if (Endf_Model.n2 ps <? 0)%Z then None
    else do (es, ms, _) <- read_tables (Z.to_nat (Endf_Model.n2 ps)) f4; Some (es, ms)
  else if ((ltt =? 3) && (li =? 0))%Z then
    do (ps, _, f4) <- Endf_Model.get_tab2_record f3;
    if (Endf_Model.n2 ps <? 0)%Z then None
    else
      do (es, ms, f5) <- read_legendre (Z.to_nat (Endf_Model.n2 ps)) f4;
      do (ps', _, f6) <- Endf_Model.get_tab2_record f5;
      if (Endf_Model.n2 ps' <? 0)%Z then None
      else do (es', ms', _) <- read_tables (Z.to_nat (Endf_Model.n2 ps')) f6; Some (es ++ es', ms ++ ms')
  else None.
