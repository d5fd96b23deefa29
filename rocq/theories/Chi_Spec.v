(** What setting the prompt fission spectrum must do, by index. *)
From Verif Require Import Num Chi_Model.
Local Open Scope Qc_scope.

Definition q (l : list Qc) (k : nat) : Qc := nth k l 0.

(** A tabulated distribution with as many grid points, pdf and cdf values. *)
Definition wf_dist (d : dist) : Prop :=
  dp d <> [] /\ length (dx d) = length (dp d) /\ length (dc d) = length (dp d).

(** The common factor: old end of the cdf plus the added area. *)
Definition factor (d : dist) (pdf : list Qc) : Qc :=
  q (dc d) (length (dp d) - 1) +
  qsum (map (fun k => (q pdf k - q (dp d) k) * (q (dx d) k - q (dx d) (k - 1)))
            (seq 1 (length (dp d) - 1))).

(** The cdf of [d'] is that of [d] with the change of the pdf to [pdf] accounted for,
    divided by the factor. *)
Definition new_cdf (d : dist) (pdf : list Qc) (d' : dist) : Prop :=
  let f := factor d pdf in
  let n := length (dp d) in
  length (dc d') = n /\
  q (dc d') 0 = q (dc d) 0 / f /\
  q (dc d') (n - 1) = 1 /\
  (forall k, (S k < n)%nat ->
     q (dc d') (S k) - q (dc d') k =
     (q (dc d) (S k) - q (dc d) k
      + (q pdf (S k) - q (dp d) (S k)) * (q (dx d) (S k) - q (dx d) k)) / f).
(** [d'] is [d] with the pdf replaced by [pdf], renormalised. *)
Definition renormalised (d : dist) (pdf : list Qc) (d' : dist) : Prop :=
  let f := factor d pdf in
  let n := length (dp d) in
  dx d' = dx d /\ length (dp d') = n /\
  (forall k, (k < n)%nat -> q (dp d') k = q pdf k / f) /\ new_cdf d pdf d'.

(** Shapes that fit and a factor that can be divided by. *)
Definition fits (d : dist) (pdf : list Qc) : Prop :=
  wf_dist d /\ length pdf = length (dp d) /\ factor d pdf <> 0.
(** No negative value is asked for. *)
Definition nonneg (d : dist) (pdf : list Qc) : Prop :=
  forall k, (k < length (dp d))%nat -> 0 <= q pdf k / factor d pdf.

(** Every requested pdf fits its distribution. *)
Definition all_fit (ds : list dist) (pdfs : list (list Qc)) : Prop :=
  forall i d pdf, nth_error ds i = Some d -> nth_error pdfs i = Some pdf -> fits d pdf.

(** The usual situation: two points or more; a length 1 would be spread. *)
Definition usual (d : dist) (pdf : list Qc) : Prop :=
  wf_dist d /\ (2 <= length (dp d))%nat /\ length pdf <> 1%nat /\ (length pdf = length (dp d) -> factor d pdf <> 0).
(** The edit stopped at distribution [k]: because of its length, without changing it, or
    because of a negative value, with its cdf changed but not its pdf.  Those before are
    rewritten, those after are as before. *)
Definition stopped (ds : list dist) (pdfs : list (list Qc)) (ds' : list dist) (k : nat) : Prop :=
  (exists d pdf d', nth_error ds k = Some d /\ nth_error pdfs k = Some pdf /\ nth_error ds' k = Some d' /\
     ((length pdf <> length (dp d) /\ d' = d) \/
      (length pdf = length (dp d) /\ ~ nonneg d pdf /\ dx d' = dx d /\ dp d' = dp d /\ new_cdf d pdf d'))) /\
  (forall i d pdf, (i < k)%nat -> nth_error ds i = Some d -> nth_error pdfs i = Some pdf ->
     exists d', nth_error ds' i = Some d' /\ nonneg d pdf /\ renormalised d pdf d') /\
  (forall i, (k < i)%nat -> nth_error ds' i = nth_error ds i).

(** The cdf is the right-rectangle integral of the pdf. *)
Definition right_consistent (d : dist) : Prop :=
  forall k, (S k < length (dp d))%nat ->
    q (dc d) (S k) - q (dc d) k = q (dp d) (S k) * (q (dx d) (S k) - q (dx d) k).
(** ... the histogram (left-rectangle) integral, the meaning of ACE
    interpolation 1 ... *)
Definition histogram_consistent (d : dist) : Prop :=
  forall k, (S k < length (dp d))%nat ->
    q (dc d) (S k) - q (dc d) k = q (dp d) k * (q (dx d) (S k) - q (dx d) k).
(** ... the trapezoidal integral, the meaning of ACE interpolation 2. *)
Definition linear_consistent (d : dist) : Prop :=
  forall k, (S k < length (dp d))%nat ->
    q (dc d) (S k) - q (dc d) k
    = (q (dp d) k + q (dp d) (S k)) / qz 2 * (q (dx d) (S k) - q (dx d) k).
