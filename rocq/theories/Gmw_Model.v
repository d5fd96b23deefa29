(** Model of the modified Cholesky factorisation
    (/repo/ASAPy/CovManipulation.py lines 99-210).
    Simplifications: real numbers instead of floats; [eps] is the machine
    epsilon of lines 96-97, any positive number; [A] is an [n] by [n] array. *)
From Coq Require Import Reals.
From Verif Require Import Mat.
Local Open Scope R_scope.

(** Lines 143-148: largest absolute diagonal and upper off-diagonal entry. *)
Definition gamma_xi (n : nat) (A : mat) : R * R :=
  range 0 n (fun i gx =>
    let gamma := Rmax (Rabs (A i i)) (fst gx) in
    range (S i) n (fun j gx => (fst gx, Rmax (Rabs (A i j)) (snd gx))) (gamma, snd gx)) (0, 0).

(** Lines 151-155. *)
Definition gmw_delta (eps gamma xi : R) : R := eps * Rmax (gamma + xi) 1.
Definition gmw_beta (eps : R) (n : nat) (gamma xi : R) : R :=
  if Nat.eqb n 1 then sqrt (Rmax gamma eps)
  else sqrt (Rmax (Rmax gamma (xi / sqrt (INR n ^ 2 - 1))) eps).

(** Lines 158-161: the arrays the loop works on. *)
Record st := mkst { sa : mat; sr : mat; se : vec; sP : mat }.

(** Lines 167-170: index of the last largest diagonal entry from [j] on. *)
Definition pivot (n j : nat) (a : mat) : nat :=
  range (S j) n (fun i q => if Rle_dec (Rabs (a q q)) (Rabs (a i i)) then i else q) j.

(** Lines 178-180: swap columns [q] and [j]. *)
Definition swap_cols (P : mat) (q j : nat) : mat :=
  fun i k => if Nat.eqb k j then P i q else if Nat.eqb k q then P i j else P i k.
(** Lines 184-186: swap rows [q] and [j]. *)
Definition swap_rows (p : mat) (q j : nat) : mat :=
  fun i k => if Nat.eqb i j then p q k else if Nat.eqb i q then p j k else p i k.

(** Lines 173-190. *)
Definition interchange (n j q : nat) (s : st) : st :=
  if Nat.eqb q j then s
  else
    let p := swap_rows meye q j in
    mkst (mmul n p (mmul n (sa s) p)) (mmul n (sr s) p) (se s) (swap_cols (sP s) q j).

(** Lines 193-196. *)
Definition theta (n j : nat) (a : mat) : R :=
  if Nat.ltb j (n - 1) then range (S j) n (fun i t => Rmax t (Rabs (a j i))) 0 else 0.
(** Line 197. *)
Definition pivot_value (beta delta th ajj : R) : R := Rmax (Rmax (Rabs ajj) ((th / beta) ^ 2)) delta.

(** Lines 204-207: row [j] of [r] and the update of [a]. *)
Definition eliminate (n j : nat) (ar : mat * mat) : mat * mat :=
  range (S j) n (fun i ar =>
    let a := fst ar in let r := snd ar in
    let r := upd r j i (a j i / r j j) in
    (range (S j) (S i) (fun k a =>
       let v := a k i - r j i * r j k in upd (upd a i k v) k i v) a, r)) ar.

(** One pass of the main loop, lines 164-207. *)
Definition gmw_step (n : nat) (beta delta : R) (j : nat) (s : st) : st :=
  let q := pivot n j (sa s) in
  let s := interchange n j q s in
  let dj := pivot_value beta delta (theta n j (sa s)) (sa s j j) in
  let e := updv (se s) j (dj - sa s j j) in
  let r := upd (sr s) j j (sqrt dj) in
  let ar := eliminate n j (sa s, r) in
  mkst (fst ar) (snd ar) e (sP s).

(** Lines 137-210: the returned permutation, factor and shift. *)
Definition gmw_cholesky (eps : R) (n : nat) (A : mat) : mat * mat * vec :=
  let gx := gamma_xi n A in
  let delta := gmw_delta eps (fst gx) (snd gx) in
  let beta := gmw_beta eps n (fst gx) (snd gx) in
  let s := range 0 n (gmw_step n beta delta) (mkst A (fun _ _ => 0) (fun _ => 0) meye) in
  (sP s, tr (sr s), se s).

(** Lines 363-367 of [sample_with_corr]: the factor used to induce the
    requested correlation.  [chol] is scipy's Cholesky (upper factor), [None]
    for a LinAlgError.  Note that the permutation is dropped. *)
Definition corr_factor (chol : nat -> mat -> option mat) (eps : R) (n : nat) (corr : mat) : mat :=
  match chol n corr with
  | Some C => C
  | None => match gmw_cholesky eps n corr with (_, L, _) => tr L end
  end.
