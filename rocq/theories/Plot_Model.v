(** The plots of a sampled reaction: what is handed to the plotting library.
    Source: /repo/ASAPy/XsecSampler.py:389-423 (get_mt_from_ace), 444-620
    (plot_sampled_info), 623-718 (plot_xsec).
    Simplifications: numbers are exact, [None] stands for NaN; the covariance data, loaded
    twice, are the same; colours, labels, sizes and file names are left out; the matrix
    np.corrcoef gives is an argument; scales set to 'log' are one flag each. *)
From Verif Require Import Num Chi_Model AceEdit_Model MapGroups_Model Samp_Model.
From Coq Require Import ZArith.
Local Open Scope nat_scope.

(** Columns 'e low', 'e high', 's.d.(1)', 'rel.s.d.(1)' of the loaded data, one row per
    group (line 472). *)
Record row := mkRow { low : Qc; high : Qc; sd : Qc; rel : Qc }.
(** A matrix of floats. *)
Definition matrix := nat -> nat -> option Qc.
(** Points of a curve. *)
Definition curve (A : Type) := list (Qc * A).

(** [l[-1]]; [None]: IndexError. *)
Definition final {A} (l : list A) : option A := match rev l with [] => None | v :: _ => Some v end.
(** [list(l) + [x]] against [list(m) + [y]], plotted (lines 474-485, 674-685). *)
Definition points {A} (xs : list Qc) (ys : list A) : curve A := combine xs ys.

(** 474-475: upper bounds of the groups, then half the last of them. *)
Definition step_energies (rs : list row) : option (list Qc) :=
  match final (map high rs) with None => None | Some e => Some (map high rs ++ [(e / qz 2)%Qc]) end.
(** 477-481: values with the last one repeated. *)
Definition step_values {A} (ys : list A) : option (list A) :=
  match final ys with None => None | Some y => Some (ys ++ [y]) end.
(** 477: variances. *)
Definition variances (rs : list row) : list Qc := map (fun r => (sd r * sd r)%Qc) rs.
(** 480: [np.diag(np.cov(v))], one entry; NaN for less than two samples. *)
Definition variance (v : list Qc) : option Qc :=
  let n := Z.of_nat (length v) in
  let m := (qsum v / qz n)%Qc in
  if (n <=? 1)%Z then None else Some (qsum (map (fun x => (x - m) * (x - m))%Qc v) / qz (n - 1))%Qc.
(** 483-485: both curves of the first figure; [samples]: one list per group. *)
Definition covariance_figure (rs : list row) (samples : list (list Qc)) : option (curve Qc * curve (option Qc)) :=
  match step_energies rs, step_values (variances rs), step_values (map variance samples) with
  | Some xs, Some ys, Some zs => Some (points xs ys, points xs zs)
  | _, _, _ => None
  end.

(** 389-423, and 511-513, 652-654: energies and values of a reaction; of the spectra (MT
    1018) the first one. *)
Definition data_of (t : table) (mt : Z) : option (list Qc * list Qc) :=
  let s := open_editor t in
  if Z.eqb mt 452 then option_map (fun n => (tx n, ty n)) (nu t)
  else if Z.eqb mt 1018 then
    match chi_energies s, get_sigma_chi s false with
    | Some (e :: _), Some (p :: _) => Some (e, p)
    | _, _ => None
    end
  else match get_energy s mt with
       | None => None
       | Some es => option_map (pair es) (get_sigma s mt (Some es) false)
       end.
(** 504-509: at most ten samples. *)
Definition how_many (samples : nat) : nat := if samples <? 10 then samples else 10.
(** 515-523: the base curve and those of the first samples; [cols]: one column of factors
    per sample. *)
Definition sample_curves (t : table) (mt : Z) (rs : list row) (cols : list (Z -> option Qc)) : option (curve Qc * list (curve Qc)) :=
  match data_of t mt with
  | None => None
  | Some (es, ys) =>
      option_map (fun vs => (points es ys, map (points es) vs))
        (all_some (map (fun c => scale (mkReq mt (map high rs) (map low rs) c) es ys) (firstn (how_many (length cols)) cols)))
  end.
(** 527-532: whether the values are drawn on a logarithmic scale; [None]: all of them are 0. *)
Definition log_values (ys : list Qc) : option bool :=
  let l := filter (fun y => negb (qeqb y 0%Qc)) ys in
  match list_max l, list_min l with
  | Some a, Some b => Some (qltb (qz 1000) (a / b)%Qc)
  | _, _ => None
  end.

(** 542-553: the edges of the cells; [None]: IndexError. *)
Definition edges (rs : list row) : option (list Qc) :=
  match rev (map low rs) with
  | [] => None
  | l :: r =>
      match (if qeqb l 0%Qc then match r with [] => None | l' :: _ => Some (l' / qz 2)%Qc end else Some l) with
      | None => None
      | Some e => Some (rev (map high rs ++ [e]))
      end
  end.
(** [np.flipud(np.fliplr(m))], 588, 607. *)
Definition flipped (n : nat) (m : matrix) : matrix := fun i j => m (n - 1 - i) (n - 1 - j).
(** 558-570: the second matrix; [coef] is np.corrcoef of the samples. *)
Definition second (diff : bool) (corr coef : matrix) : matrix :=
  if diff then fun i j => match coef i j, corr i j with Some a, Some b => Some (qabs (a - b)) | _, _ => None end
  else fun i j =>
    let unsampled k := match corr k k with Some v => qeqb v 0%Qc | None => false end in
    if unsampled i || unsampled j then Some 0%Qc else match coef i j with None => Some 0%Qc | v => v end.
(** The entries, and [np.amax], [np.amin]: NaN if there is one. *)
Definition entries (n : nat) (m : matrix) : list (option Qc) := concat (map (fun i => map (m i) (seq 0 n)) (seq 0 n)).
Definition amax (n : nat) (m : matrix) : option Qc := match all_some (entries n m) with Some l => list_max l | None => None end.
Definition amin (n : nat) (m : matrix) : option Qc := match all_some (entries n m) with Some l => list_min l | None => None end.
(** [a > b] of floats. *)
Definition above (a b : option Qc) : bool := match a, b with Some x, Some y => qltb y x | _, _ => false end.
(** 572-583: the range of colours ([vmin], [vmax]). *)
Definition colours (widest : bool) (n : nat) (corr shown : matrix) : option Qc * option Qc :=
  let vmin := if widest then Some (qz (-1)) else amax n corr in
  let vmax := if widest then Some (qz 1) else amin n corr in
  let vmax := if above (amax n shown) vmax then amax n shown else vmax in
  let vmin := if above vmin (amin n shown) then amin n shown else vmin in
  (vmin, vmax).
(** 542-607: edges, the two matrices, the range of colours. *)
Definition correlation_figure (diff widest : bool) (rs : list row) (corr coef : matrix) : option (list Qc * matrix * matrix * (option Qc * option Qc)) :=
  let n := length rs in
  let m := second diff corr coef in
  option_map (fun es => (es, flipped n corr, flipped n m, colours widest n corr m)) (edges rs).

(** 671-687: relative deviations in percent below the cross section; [e0] is the first
    energy of the reaction. *)
Definition deviations (rs : list row) (e0 : Qc) : option (curve Qc) :=
  let ys := map (fun r => rel r * qz 100)%Qc rs in
  match final (map high rs), final ys with
  | Some e, Some y => Some (if qltb e0 e then points (map high rs ++ [e0]) (ys ++ [y]) else points (map high rs) ys)
  | _, _ => None
  end.
(** 689-693: the scale of the deviations; it starts as the argument [log_y]. *)
Definition log_deviations (log_y : bool) (ys : list Qc) : option bool :=
  match list_min ys, list_max ys with
  | Some a, Some b =>
      Some (if qltb 0%Qc a && qltb (qz 100) (b / a)%Qc then true
            else if qeqb a 0%Qc && qltb (qz 100) b then true else log_y)
  | _, _ => None
  end.
(** 647-687: base curve and deviations. *)
Definition base_figure (t : table) (mt : Z) (rs : list row) : option (curve Qc * curve Qc) :=
  match data_of t mt with
  | Some (es, ys) => match es with
                     | e0 :: _ => option_map (pair (points es ys)) (deviations rs e0)
                     | [] => None
                     end
  | None => None
  end.
