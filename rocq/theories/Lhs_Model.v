(** Stratified draws.  Source: /repo/ASAPy/CovManipulation.py:213-252 and
    383-420, and their use by /repo/ASAPy/XsecSampler.py:142-166 and 336-387.
    Simplifications: exact rationals; a 2-d array is the list of its columns;
    SALib's latin sampler (argument [latin]), the standard normal quantile, the
    exponential and the two lognormal parameters (record [ext]) are external;
    draws that are NaN, replaced by 1 at line 418, do not occur. *)
From Verif Require Import Num XNum Text Sampler_Model SampleCorr_Model.
Local Open Scope nat_scope.
Local Open Scope list_scope.

(** SciPy's [norm.ppf(p)] with location 0 and scale 1; NumPy's [exp]; and the
    parameters of the underlying normal, CovManipulation.py:391-392, as
    functions of mean and deviation. *)
Record ext := mkExt { z_of : Qc -> Qc; exp_of : Qc -> Qc; mu_of : Qc -> Qc -> Qc; sigma_of : Qc -> Qc -> Qc }.

(** SciPy's [norm.ppf(p, loc, scale)] and [uniform.ppf(p, loc, scale)]. *)
Definition norm_ppf (x : ext) (p loc scale : Qc) : Qc := (loc + z_of x p * scale)%Qc.
Definition uniform_ppf (p loc scale : Qc) : Qc := (loc + p * scale)%Qc.

(** CovManipulation.py:383-418: the value drawn at probability [p]. *)
Definition value_at (x : ext) (d : dist) (m s p : Qc) : Qc :=
  match d with
  | Normal => norm_ppf x p m s
  | LogNormal => exp_of x (norm_ppf x p (mu_of x m s) (sigma_of x m s))
  | Uniform => uniform_ppf p m s
  end.

(** CovManipulation.py:213-228; [latin call num_vars num_samples] is what the
    sampler returns at its call number [call]. *)
Definition lhs_uniform_sample (latin : nat -> nat -> nat -> list (list Qc)) (call num_vars num_samples : nat)
  : list (list Qc) := latin call num_vars num_samples.

(** CovManipulation.py:230-252. *)
Definition lhs_normal_sample (latin : nat -> nat -> nat -> list (list Qc)) (x : ext) (num_samples : nat)
    (means devs : list Qc) : list (list Qc) :=
  let samples := lhs_uniform_sample latin 0 (length means) num_samples in
  map (fun i => map (fun p => norm_ppf x p (nth i means 0%Qc) (nth i devs 0%Qc)) (nth i samples []))
      (seq 0 (length means)).

(** CovManipulation.py:406-411: the draws of one variable, from one call of the
    sampler for a single variable. *)
Definition draws (latin : nat -> nat -> nat -> list (list Qc)) (x : ext) (ns : nat)
    (d : dist) (i : nat) (m s : Qc) : list Qc :=
  map (value_at x d m s) (nth 0 (lhs_uniform_sample latin i 1 ns) []).

(** CovManipulation.py:273-436 with these draws. *)
Definition sample_lhs latin x scores mean std dg ns distro : cresult (list (list Qc)) :=
  sample_with_corr scores (draws latin x ns) mean std dg ns distro.

(** The name given at XsecSampler.py:142-166 for each distribution. *)
Definition dist_name (d : dist) : text :=
  match d with Normal => str "normal" | LogNormal => str "lognormal" | Uniform => str "uniform" end.

(** XsecSampler.py:142-166: one list of group values per sample; [dg c] is the
    diagonal of the stored ([true]) or identity correlation, [scores c] the score
    matrix made from it.  A call that raises has no samples. *)
Definition drawn latin x (scores : bool -> nat -> list (list Qc)) mean std (dg : bool -> list Qc)
    (c : bool) (d : dist) (ns : nat) : list (list xnum) :=
  match sample_lhs latin x (scores c) mean std (dg c) ns (dist_name d) with
  | COk out => map (fun k => map (fun col => Fin (nth k col 0%Qc)) out) (seq 0 ns)
  | CRaise _ => []
  end.

(** XsecSampler.py:336-387. *)
Definition sample_xsec_lhs latin x scores mean std dg st ns rb rn : sresult (frame * frame) :=
  sample_xsec (drawn latin x scores mean std dg) (map Fin mean) st ns rb rn.
