(** Model of the prompt fission spectrum update of the ACE editor.
    Source: /repo/ASAPy/AceIO.py, class AceEditor. *)
From Verif Require Import Num.

(** One outgoing-energy distribution: the [x], [p] and [c] attributes used by
    AceIO.py:84-187 (class Tabular, data/univariate.py:312-405, plus the [c]
    attribute attached by data/energy_distribution.py:1192-1277).
    Simplification: entries of [energy_out] that are not Tabular (Discrete,
    Mixture) are not modelled; numbers are exact rationals. *)
Record dist := mkDist { dx : list Qc; dp : list Qc; dc : list Qc }.

(** [np.diff] as used at AceIO.py:174. *)
Fixpoint diffs (l : list Qc) : list Qc :=
  match l with
  | a :: ((b :: _) as r) => (b - a)%Qc :: diffs r
  | _ => []
  end.

(** [np.insert(np.diff(distro.x), 0, 0)], AceIO.py:174-175. *)
Definition delta_e (x : list Qc) : list Qc := 0%Qc :: diffs x.

(** Element-wise numpy arithmetic on arrays of equal length (AceIO.py:171,
    176, 182, 183). *)
Fixpoint zipw (f : Qc -> Qc -> Qc) (a b : list Qc) : list Qc :=
  match a, b with
  | x :: a', y :: b' => f x y :: zipw f a' b'
  | _, _ => []
  end.

(** [[sum(delta_cdf[0:i+1]) for i in range(len(delta_cdf))]], AceIO.py:178:
    running totals, [acc] is the total so far. *)
Fixpoint running (acc : Qc) (l : list Qc) : list Qc :=
  match l with
  | [] => []
  | a :: r => (acc + a)%Qc :: running (acc + a)%Qc r
  end.

(** The same on arrays of any lengths: one of length 1 is spread over the other, other
    unequal lengths raise ([None]). *)
Definition bzip (f : Qc -> Qc -> Qc) (a b : list Qc) : option (list Qc) :=
  if length a =? length b then Some (zipw f a b)
  else match a, b with
       | [x], _ => Some (map (f x) b)
       | _, [y] => Some (map (fun x => f x y) a)
       | _, _ => None
       end.

(** Loop body of set_chi_distro for one distribution, AceIO.py:170-183: the distribution
    afterwards and [false] if an exception escapes: numpy on unequal lengths, an index
    into an empty array, or the setter of p (data/univariate.py:370-377, with
    ignore_negative false as made by data/energy_distribution.py:1250-1252) on a
    negative value, which comes after the cdf was assigned.
    Simplification: a zero normalisation, for which numpy stores inf/nan, gives
    [false]; the theorems assume a non-zero one. *)
Definition dist_set (d : dist) (pdf : list Qc) : dist * bool :=
  match bzip Qcminus pdf (dp d) with
  | None => (d, false)
  | Some delta_pdf =>
  match bzip Qcmult delta_pdf (delta_e (dx d)) with
  | None => (d, false)
  | Some delta_cdf =>
    let delta_cdf_sum := running 0%Qc delta_cdf in
    match dc d, delta_cdf_sum with
    | [], _ | _, [] => (d, false)
    | _, _ =>
      let normalization := (last (dc d) 0 + last delta_cdf_sum 0)%Qc in
      match bzip Qcplus (dc d) delta_cdf_sum with
      | None => (d, false)
      | Some c =>
          if qeqb normalization 0 then (d, false)
          else let c' := map (fun v => (v / normalization)%Qc) c in
               let p' := map (fun v => (v / normalization)%Qc) pdf in
               if existsb (fun v => qltb v 0%Qc) p' then ({| dx := dx d; dp := dp d; dc := c' |}, false)
               else ({| dx := dx d; dp := p'; dc := c' |}, true)
      end
    end
  end
  end.

(** The loop of set_chi_distro, AceIO.py:169-183.  The boolean is [false] when
    an exception escapes; distributions already rewritten stay rewritten. *)
Fixpoint chi_loop (ds : list dist) (pdfs : list (list Qc)) : list dist * bool :=
  match ds, pdfs with
  | d :: ds', pdf :: pdfs' =>
      match dist_set d pdf with
      | (d', false) => (d' :: ds', false)
      | (d', true) => let (r, ok) := chi_loop ds' pdfs' in (d' :: r, ok)
      end
  | _, _ => (ds, true)
  end.

(** set_chi_distro, AceIO.py:138-187: shape checks (lines 161-167), then the
    loop.  [false] = an exception was raised. *)
Definition set_chi (ds : list dist) (pdfs : list (list Qc)) : list dist * bool :=
  if negb (length ds =? length pdfs) then (ds, false)
  else match ds, pdfs with
       | d :: _, pdf :: _ =>
           if negb (length (dx d) =? length pdf) then (ds, false)
           else chi_loop ds pdfs
       | _, _ => (ds, false)   (* energy_out[0] / pdf[0]: IndexError *)
       end.
