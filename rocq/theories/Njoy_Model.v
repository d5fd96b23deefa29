(** Building NJOY decks.
    Source: /repo/ASAPy/njoy.py:96-330 (templates), 396-686; /repo/ASAPy/EndfToCov.py:287-347.
    Simplifications: a deck is its sequence of modules with the units they read and
    write (the cards as printed by the templates, in template order); all other
    card contents except the presence of the user weight table are left out;
    unit 0 means "none" in NJOY and is dropped; the ENDF file can be opened; text
    written to njoy_in.txt is not modelled; temperatures are only counted. *)
From Coq Require Import List Bool Arith ZArith.
Import ListNotations.
Local Open Scope nat_scope.

(** What a unit holds. *)
Inductive kind := Endf | Pendf | Gendf | Errorr | Boxer | Plot | Eps | Ace | Xsdir.
(** One module call: what it reads (with the kind of data it needs there), what it
    writes; whether weighting by a user table is requested, and the table given. *)
Record module := { reads : list (kind * nat); writes : list (kind * nat); wants_table : bool; has_table : bool }.

(** njoy.py:421-425: the arguments; [groups] tells whether cov_energy_groups is given,
    [iwt1] whether iwt_fluxweight is 1, [weights] whether user_flux_weight_vals is
    given, [plot] whether covr_plot_mts is not empty. *)
Record options := { temps : nat; pendf : bool; broadr : bool; heatr : bool; purr : bool; acer : bool; errorr : bool;
  groups : bool; run : bool; plot : bool; chi : bool; nu : bool; iwt1 : bool; weights : bool }.

(** What is built up: the deck, tapeout (an ordered dictionary) and the highest unit. *)
Record state := { deck : list module; tapeout : list (nat * kind); nlast : nat }.
Definition add (m : module) (s : state) : state := {| deck := deck s ++ [m]; tapeout := tapeout s; nlast := nlast s |}.
(** [d[k] = v] for an ordered dictionary. *)
Fixpoint set_item {A} (k : nat) (v : A) (d : list (nat * A)) : list (nat * A) :=
  match d with
  | [] => [(k, v)]
  | (k', v') :: r => if k =? k' then (k, v) :: r else (k', v') :: set_item k v r
  end.
Definition out (k : nat) (v : kind) (s : state) : state := {| deck := deck s; tapeout := set_item k v (tapeout s); nlast := nlast s |}.
Definition up (n : nat) (s : state) : state := {| deck := deck s; tapeout := tapeout s; nlast := n |}.
Definition mk (r w : list (kind * nat)) : module := {| reads := r; writes := w; wants_table := false; has_table := false |}.
Definition weighted (o : options) (t : bool) (r w : list (kind * nat)) : module := {| reads := r; writes := w; wants_table := iwt1 o; has_table := t |}.
Definition nendf := 20.
Definition npendf := 21.

(** njoy.py:96-105 (reconr), 107-114 (broadr). *)
Definition reconr : module := mk [(Endf, nendf)] [(Pendf, npendf)].
Definition broadr_call (n : nat) : module := mk [(Endf, nendf); (Pendf, npendf)] [(Pendf, n)].
(** njoy.py:116-121 (heatr), 123-130 (purr), 132-140 (acer). *)
Definition heatr_call (i n : nat) : module := mk [(Endf, nendf); (Pendf, i)] [(Pendf, n)].
Definition purr_call (i n : nat) : module := mk [(Endf, nendf); (Pendf, i)] [(Pendf, n)].
Definition acer_call (i a x : nat) : module := mk [(Endf, nendf); (Pendf, i)] [(Ace, a); (Xsdir, x)].
(** njoy.py:142-215 (groupr); the template for plots never gets a weight table
    (njoy.py:575). *)
Definition groupr_call (o : options) (t : bool) (i n : nat) : module := weighted o t [(Endf, nendf); (Pendf, i)] [(Gendf, n)].
(** njoy.py:236-245 (mf 33: no PENDF input), 247-268 (mf 31 and 35). *)
Definition errorr33 (o : options) (g n : nat) : module := weighted o (iwt1 o) [(Endf, nendf); (Gendf, g)] [(Errorr, n)].
Definition errorr31 (o : options) (p g n : nat) : module := weighted o (iwt1 o) [(Endf, nendf); (Pendf, p); (Gendf, g)] [(Errorr, n)].
(** njoy.py:271-317 (covr for plots, viewr, covr for a library). *)
Definition covr_plot (e p : nat) : module := mk [(Errorr, e)] [(Plot, p)].
Definition viewr (p v : nat) : module := mk [(Plot, p)] [(Eps, v)].
Definition covr_lib (e b : nat) : module := mk [(Errorr, e)] [(Boxer, b)].

(** njoy.py:533-569: one temperature. *)
Definition one_temperature (o : options) (nbroadr : nat) (s : state) : state :=
  let g := S (nlast s) in
  let s := up g s in
  let e := S (nlast s) in
  let s := add (errorr33 o g e) (add (groupr_call o (iwt1 o) nbroadr g) s) in
  let s := up e s in
  let c := S (nlast s) in
  let s := add (covr_lib e c) (up c (out c Boxer s)) in
  if plot o then
    let p := S (nlast s) in
    let s := up p s in
    let v := S (nlast s) in
    let s := up v (out v Eps s) in
    add (viewr p v) (add (covr_plot e p) s)
  else s.
Fixpoint temperatures (k : nat) (o : options) (nbroadr : nat) (s : state) : state :=
  match k with O => s | S k' => temperatures k' o nbroadr (one_temperature o nbroadr s) end.
(** njoy.py:571-578. *)
Definition groupr_fission (o : options) (nbroadr : nat) (s : state) : state :=
  let g := S (nlast s) in up g (add (groupr_call o false nbroadr g) s).
(** njoy.py:580-602 (nu), 604-626 (chi); [g] is the unit of the groupr call above. *)
Definition fission_part (o : options) (nbroadr g : nat) (s : state) : state :=
  let e := S (nlast s) in
  let s := up e (add (errorr31 o nbroadr g e) s) in
  let p := S (nlast s) in
  let s := up p s in
  let v := S (nlast s) in
  let s := up v s in
  let s := add (viewr p v) (add (covr_plot e p) s) in
  let c := S (nlast s) in
  let s := out v Eps (out c Boxer s) in
  add (covr_lib e c) (up c s).

(** Why no deck is built: no group structure, no weights, a local variable that is not
    set (UnboundLocalError, or KeyError from [locals()]), the call of a truth value. *)
Inductive failure := NoGroups | NoWeights | Unset | NotCallable.
Inductive result (A : Type) := Ok (a : A) | Raised (f : failure).
Arguments Ok {A}. Arguments Raised {A}.

(** njoy.py:512-626. *)
Definition covariances (o : options) (nbroadr : option nat) (s : state) : result state :=
  if negb (groups o) then Raised NoGroups
  else if iwt1 o && negb (weights o) then Raised NoWeights
  else
    match temps o, nbroadr with
    | O, _ => if nu o || chi o then Raised Unset else Ok s
    | _, None => Raised Unset
    | k, Some b =>
        let s := temperatures k o b s in
        if nu o || chi o then
          let g := S (nlast s) in
          let s := groupr_fission o b s in
          let s := if nu o then fission_part o b g s else s in
          let s := if chi o then fission_part o b g s else s in
          Ok s
        else Ok s
    end.
(** njoy.py:646-659: one call per temperature. *)
Fixpoint acers (k i nacer_in : nat) (s : state) : state :=
  match k with
  | O => s
  | S k' => let a := nacer_in + 1 + 2 * i in
            acers k' (S i) nacer_in (out (S a) Xsdir (out a Ace (add (acer_call nacer_in a (S a)) s)))
  end.
(** njoy.py:421-686. *)
Definition make_njoy_run (o : options) : result (list module * list (nat * kind)) :=
  let s := {| deck := [reconr]; tapeout := if pendf o then [(npendf, Pendf)] else []; nlast := npendf |} in
  let nbroadr := if broadr o then Some (S (nlast s)) else None in
  let s := match nbroadr with Some n => up n (add (broadr_call n) s) | None => s end in
  match (if errorr o then covariances o nbroadr s else Ok s) with
  | Raised f => Raised f
  | Ok s =>
      match (if heatr o
             then match nbroadr with
                  | None => Raised Unset
                  | Some i => let n := S (nlast s) in Ok (up n (add (heatr_call i n) s))
                  end
             else Ok s) with
      | Raised f => Raised f
      | Ok s =>
          let s := if purr o then let i := nlast s in up (S i) (add (purr_call i (S i)) s) else s in
          let s := if acer o then acers (temps o) 0 (nlast s) s else s in
          if run o then Raised NotCallable else Ok (deck s, tapeout s)
      end
  end.
(** njoy.py:396-419: the defaults of [make_njoy_run] where not given (one
    temperature). *)
Definition make_pendf : result (list module * list (nat * kind)) :=
  make_njoy_run {| temps := 1; pendf := true; broadr := false; heatr := false; purr := false; acer := false; errorr := true;
    groups := false; run := false; plot := false; chi := false; nu := false; iwt1 := false; weights := false |}.

(** EndfToCov.py:334: [list(d.items())[0::2]]. *)
Fixpoint every_other {A} (l : list A) : list A :=
  match l with x :: _ :: r => x :: every_other r | l => l end.
(** EndfToCov.py:287-334: the options passed and the tapes picked; [mts] tells whether
    any MT is requested (18 is added for chi). *)
Definition cover_options (k : nat) (mts nu chi iwt1 weights groups : bool) : options :=
  {| temps := k; pendf := false; broadr := true; heatr := false; purr := false; acer := false; errorr := true;
     groups := groups; run := false; plot := mts || chi; chi := chi; nu := nu; iwt1 := iwt1; weights := weights |}.
Definition cover_tapes (k : nat) (mts nu chi iwt1 weights groups : bool) : result (list (nat * kind)) :=
  match make_njoy_run (cover_options k mts nu chi iwt1 weights groups) with
  | Ok (_, t) => Ok (every_other t)
  | Raised f => Raised f
  end.
