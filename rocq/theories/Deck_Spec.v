(** What an NJOY deck says: its cards, and the module calls they stand for
    (independent of templates and formatting). *)
From Coq Require Import List Bool Arith ZArith Ascii String.
From Verif Require Import Text Dec Deck_Model.
From Verif Require Njoy_Model.
Import ListNotations.
Local Open Scope nat_scope.
Local Open Scope list_scope.

(** *** Reading cards *)
(** A card is a line that says something: its words (a text in quotes is one word,
    quotes included), up to a slash; and whether there is a slash. *)
Definition card := (list text * bool)%type.
Inductive mode := Plain | Quoted | Comment.
(** The cards read, the words of the line so far, the word begun, whether one is. *)
Record reader := { got : list card; ws : list text; cur : text; on : bool; slash : bool; where_ : mode }.
Definition flush (r : reader) : reader :=
  if on r then {| got := got r; ws := ws r ++ [cur r]; cur := []; on := false; slash := slash r; where_ := where_ r |} else r.
Definition line_ends (r : reader) : reader :=
  let r := flush r in
  {| got := if slash r || negb (match ws r with [] => true | _ => false end) then got r ++ [(ws r, slash r)] else got r;
     ws := []; cur := []; on := false; slash := false; where_ := Plain |}.
Definition take (c : ascii) (m : mode) (r : reader) : reader :=
  {| got := got r; ws := ws r; cur := cur r ++ [c]; on := true; slash := slash r; where_ := m |}.
Definition quote : ascii := "'"%char.
Definition step (r : reader) (c : ascii) : reader :=
  if eqc c nl then line_ends r
  else match where_ r with
       | Comment => r
       | Quoted => take c (if eqc c quote then Plain else Quoted) r
       | Plain =>
           if eqc c sp then flush r
           else if eqc c "/" then let r := flush r in {| got := got r; ws := ws r; cur := []; on := false; slash := true; where_ := Comment |}
           else take c (if eqc c quote then Quoted else Plain) r
       end.
Definition blank : reader := {| got := []; ws := []; cur := []; on := false; slash := false; where_ := Plain |}.
Definition cards (t : text) : list card := got (line_ends (fold_left step t blank)).

(** Reading [k] items in free format: from the words of a card and, while there is no
    slash, of those that follow. *)
Fixpoint items (k : nat) (cs : list card) : option (list text) :=
  match cs with
  | [] => match k with O => Some [] | _ => None end
  | (w, s) :: r =>
      if k <=? List.length w then Some (firstn k w)
      else if s then None
      else option_map (app w) (items (k - List.length w) r)
  end.

(** *** Module calls *)
Inductive call :=
  | Remark (ws : list text) (s : bool)
  | Reconr (o : nat)
  | Broadr (i o : nat)
  | Heatr (i o : nat)
  | Purr (i o : nat)
  | Acer (suffix i a x : nat) (t : text)
  | Xsec (i o : nat)
  | Fission (i o : nat)
  | Cov33 (g e : nat) (t : text)
  | Cov3x (mf : nat) (p g e : nat) (t : text)
  | CovLib (e c : nat)
  | CovPlot (e p : nat) (mts : list Z)
  | View (p v : nat).

Definition w (s : string) : text := str s.
Definition titled (s : text) : text := [quote] ++ s ++ [quote].
Definition c0 (l : list text) : card := (l, false).
Definition c1 (l : list text) : card := (l, true).
(** Numbers one to a line, a slash after the last. *)
Fixpoint column (l : list text) : list card :=
  match l with [] => [] | [x] => [c1 [x]] | x :: r => c0 [x] :: column r end.
(** The group structure: the number of groups, then the bounds. *)
Definition structure (bounds : list text) : list card := c1 [num (List.length bounds - 1)] :: column bounds.
(** A weight table: a TAB1 header with the number of points, then the points. *)
Definition table (l : list text) : list card :=
  let n := num (List.length l / 2) in c0 [w "0."; w "0."; w "0"; w "0"; w "1"; n; n; w "2"] :: column l.
(** The groups and weights given to the run. *)
Definition bounds_of (a : args) : list text := match cov_energy_groups a with Some l => l | None => [] end.
Definition weights_of (a : args) : list text := match user_flux_weight_vals a with Some l => l | None => [] end.
Definition own_weights (a : args) : bool := (iwt_fluxweight a =? 1)%Z.
Definition table_if (a : args) : list card := if own_weights a then table (weights_of a) else [].

(** The cards of each call for material [mat], library and target of [a]. *)
Definition cards_of (a : args) (c : call) : list card :=
  let mat := decZ (mat a) in
  let iwt := decZ (iwt_fluxweight a) in
  let ts := map shown (temps_of a) in
  let nt := num (List.length (temps_of a)) in
  match c with
  | Remark l s => [(l, s)]
  | Reconr o =>
      [c1 [w "reconr"]; c0 [w "20"; num o]; c1 [titled (library (lib a) ++ w " PENDF for " ++ zsymam a)]; c1 [mat; w "2"]; c1 [error a];
       c1 [titled (library (lib a) ++ w ": " ++ zsymam a)]; c1 [w "'Processed by NJOY'"]; c1 [w "0"]]
  | Broadr i o => [c1 [w "broadr"]; c0 [w "20"; num i; num o]; c1 [mat; nt; w "0"; w "0"; w "0."]; c1 [error a]; c0 ts; c1 [w "0"]]
  | Heatr i o => [c1 [w "heatr"]; c1 [w "20"; num i; num o]; c1 [mat; w "3"]; c1 [w "302"; w "318"; w "402"]]
  | Purr i o => [c1 [w "purr"]; c1 [w "20"; num i; num o]; c1 [mat; nt; w "1"; w "20"; w "64"]; c0 ts; c0 [w "1.e10"]; c1 [w "0"]]
  | Acer k i x d t =>
      [c1 [w "acer"]; c0 [w "20"; num i; w "0"; num x; num d]; c1 [w "1"; w "0"; w "1"; w "." ++ two_digits k];
       c1 [titled (library (lib a) ++ w ": " ++ zsymam a ++ w " at " ++ t)]; c0 [mat; t]; c1 [w "1"; w "1"]; c1 []]
  | Xsec i o =>
      [c1 [w "groupr"]; c1 [w "20"; num i; w "0"; num o]; c1 [mat; w "1"; w "0"; iwt; w "1"; nt]; c1 [w "xsec"]; c1 ts; c1 [w "1e10"]]
      ++ structure (bounds_of a) ++ table_if a ++ flat_map (fun _ => [c1 [w "3"]; c1 [w "0"]]) ts ++ [c1 [w "0"]]
  | Fission i o =>
      [c0 [w "groupr"]; c1 [w "20"; num i; w "0"; num o]; c1 [mat; w "1"; w "0"; iwt; w "1"; nt]; c1 [w "nu"; w "and"; w "chi"]; c1 ts; c1 [w "1e10"]]
      ++ structure (bounds_of a)
      ++ flat_map (fun _ => [c1 [w "3"; w "452"; w "'nu'"]; c1 [w "3"; w "455"; w "'p nu'"]; c1 [w "3"; w "456"; w "'d nu'"];
                             c1 [w "3"; w "18"; w "'fiss'"]; c1 [w "5"; w "18"; w "'chi'"]; c1 [w "0"]]) ts
      ++ [c1 [w "0"]]
  | Cov33 g e t =>
      [c1 [w "errorr"]; c1 [w "20"; w "0"; num g; num e]; c1 [mat; w "1"; iwt]; c1 [w "0"; t]; c1 [w "0"; w "33"]]
      ++ structure (bounds_of a) ++ table_if a
  | Cov3x mf p g e t =>
      [c1 [w "errorr"]; c1 [w "20"; num p; num g; num e]; c1 [mat; w "1"; iwt]; c1 [w "1"; t]; c1 [w "0"; num mf; w "1"; w "1"; w "-1"]]
      ++ structure (bounds_of a) ++ table_if a
  | CovLib e b => [c1 [w "covr"]; c1 [num e; num b]; c1 [w "3"]; c1 [w "corr"]; c1 []; c1 [mat]]
  | CovPlot e p mts =>
      [c1 [w "covr"]; c1 [num e; w "0"; num p]; c1 [w "1"]; c1 []]
      ++ match mts with
         | [] => [c1 [w "1"; w "1"]; c1 [mat]]
         | _ => c1 [w "1"; num (List.length mts)] :: map (fun mt => c1 [mat; decZ mt; mat; decZ mt]) mts
         end
  | View p v => [c1 [w "viewr"]; c1 [num p; num v]]
  end.

(** *** The calls of a run, with their units *)
Definition plotted (a : args) : bool := match covr_plot_mts a with [] => false | _ => true end.
Definition fissile (a : args) : bool := nu a || chi a.
(** Units used for one temperature, and in all by the covariances. *)
Definition width (a : args) : nat := if plotted a then 5 else 3.
Definition after_temps (a : args) : nat := 22 + width a * List.length (temps_of a).
(** The calls of the [i]-th temperature. *)
Definition at_temperature (a : args) (i : nat) (t : temperature) : list call :=
  let b := 22 + width a * i in
  [Xsec 22 (b + 1); Cov33 (b + 1) (b + 2) (shown t); CovLib (b + 2) (b + 3)]
  ++ if plotted a then [CovPlot (b + 2) (b + 4) (covr_plot_mts a); View (b + 4) (b + 5)] else [].
Fixpoint mapi {A B} (f : nat -> A -> B) (i : nat) (l : list A) : list B :=
  match l with [] => [] | x :: r => f i x :: mapi f (S i) r end.
(** Those of nu or chi from unit [b + 1] on, with the fission groups on [f]; the
    temperature is the last one. *)
Definition last_temp (a : args) : text := last (map shown (temps_of a)) [].
Definition fission_calls (a : args) (mf : nat) (mts : list Z) (f b : nat) : list call :=
  [Cov3x mf 22 f (b + 1) (last_temp a); CovPlot (b + 1) (b + 2) mts; View (b + 2) (b + 3); CovLib (b + 1) (b + 4)].
Definition after_groups (a : args) : nat := after_temps a + (if fissile a then 1 else 0).
Definition after_nu (a : args) : nat := after_groups a + (if nu a then 4 else 0).
Definition after_chi (a : args) : nat := after_nu a + (if chi a then 4 else 0).
Definition covariance_calls (a : args) : list call :=
  concat (mapi (at_temperature a) 0 (temps_of a))
  ++ (if fissile a then [Remark [w "--"; w "Nu-bar"] true; Fission 22 (after_temps a + 1)] else [])
  ++ (if nu a then fission_calls a 31 [452]%Z (after_temps a + 1) (after_groups a) else [])
  ++ (if chi a then Remark [w "--"; w "Chi"; w "info"] false :: fission_calls a 35 [] (after_temps a + 1) (after_nu a) else []).
Definition after_cov (a : args) : nat := if errorr a then after_chi a else if broadr a then 22 else 21.
Definition after_heat (a : args) : nat := after_cov a + (if heatr a then 1 else 0).
Definition after_purr (a : args) : nat := after_heat a + (if purr a then 1 else 0).
Definition calls (a : args) : list call :=
  [Reconr 21] ++ (if broadr a then [Broadr 21 22] else []) ++ (if errorr a then covariance_calls a else [])
  ++ (if heatr a then [Heatr 22 (after_cov a + 1)] else []) ++ (if purr a then [Purr (after_heat a) (after_heat a + 1)] else [])
  ++ (if acer a then mapi (fun i t => Acer (i + 1) (after_purr a) (after_purr a + 2 * i + 1) (after_purr a + 2 * i + 2) (shown t)) 0 (temps_of a) else []).

(** The files the tapes are to be moved to. *)
Definition temp_files (a : args) (i : nat) (t : temperature) : list (nat * text) :=
  let b := 22 + width a * i in
  (b + 3, w "covr_" ++ shown t ++ w ".txt") :: if plotted a then [(b + 5, w "viewr_" ++ shown t ++ w ".eps")] else [].
Definition files (a : args) : list (nat * text) :=
  match pendf a with Some f => [(21, f)] | None => [] end
  ++ (if errorr a then
        concat (mapi (temp_files a) 0 (temps_of a))
        ++ (if nu a then [(after_groups a + 4, w "covr_nu_" ++ last_temp a ++ w ".txt"); (after_groups a + 3, w "viewr_nu_" ++ last_temp a ++ w ".eps")] else [])
        ++ (if chi a then [(after_nu a + 4, w "covr_chi_" ++ last_temp a ++ w ".txt"); (after_nu a + 3, w "viewr_chi_" ++ last_temp a ++ w ".eps")] else [])
      else [])
  ++ (if acer a then concat (mapi (fun i t => [(after_purr a + 2 * i + 1, ace a ++ w "_" ++ tenths t); (after_purr a + 2 * i + 2, xsdir a ++ w "_" ++ tenths t)]) 0 (temps_of a)) else []).

(** Where a call with a group structure gives the number of groups, counted in cards. *)
Definition structure_at (c : call) : option nat :=
  match c with Xsec _ _ | Fission _ _ => Some 6 | Cov33 _ _ _ | Cov3x _ _ _ _ _ => Some 5 | _ => None end.
(** Where one with a weight table gives it, when the structure has [n] bounds. *)
Definition table_at (c : call) (n : nat) : option nat :=
  match c with Fission _ _ => None | _ => option_map (fun k => k + 1 + n) (structure_at c) end.
(** Where a call gives the temperatures of the run. *)
Definition temps_at (c : call) : option nat :=
  match c with Xsec _ _ | Fission _ _ | Broadr _ _ => Some 4 | Purr _ _ => Some 3 | _ => None end.

(** The units a call reads and writes (C32). *)
Definition asks (a : args) (c : call) : list Njoy_Model.module :=
  let m r o t g := [{| Njoy_Model.reads := r; Njoy_Model.writes := o; Njoy_Model.wants_table := t; Njoy_Model.has_table := g |}] in
  let i := own_weights a in
  match c with
  | Remark _ _ => []
  | Reconr o => m [(Njoy_Model.Endf, 20)] [(Njoy_Model.Pendf, o)] false false
  | Broadr p o | Heatr p o | Purr p o => m [(Njoy_Model.Endf, 20); (Njoy_Model.Pendf, p)] [(Njoy_Model.Pendf, o)] false false
  | Acer _ p x d _ => m [(Njoy_Model.Endf, 20); (Njoy_Model.Pendf, p)] [(Njoy_Model.Ace, x); (Njoy_Model.Xsdir, d)] false false
  | Xsec p o => m [(Njoy_Model.Endf, 20); (Njoy_Model.Pendf, p)] [(Njoy_Model.Gendf, o)] i i
  | Fission p o => m [(Njoy_Model.Endf, 20); (Njoy_Model.Pendf, p)] [(Njoy_Model.Gendf, o)] i false
  | Cov33 g e _ => m [(Njoy_Model.Endf, 20); (Njoy_Model.Gendf, g)] [(Njoy_Model.Errorr, e)] i i
  | Cov3x _ p g e _ => m [(Njoy_Model.Endf, 20); (Njoy_Model.Pendf, p); (Njoy_Model.Gendf, g)] [(Njoy_Model.Errorr, e)] i i
  | CovLib e b => m [(Njoy_Model.Errorr, e)] [(Njoy_Model.Boxer, b)] false false
  | CovPlot e p _ => m [(Njoy_Model.Errorr, e)] [(Njoy_Model.Plot, p)] false false
  | View p v => m [(Njoy_Model.Plot, p)] [(Njoy_Model.Eps, v)] false false
  end.
(** The options of the model of C32. *)
Definition options_of (a : args) : Njoy_Model.options :=
  {| Njoy_Model.temps := List.length (temps_of a); Njoy_Model.pendf := match pendf a with Some _ => true | None => false end;
     Njoy_Model.broadr := broadr a; Njoy_Model.heatr := heatr a; Njoy_Model.purr := purr a; Njoy_Model.acer := acer a; Njoy_Model.errorr := errorr a;
     Njoy_Model.groups := match cov_energy_groups a with Some _ => true | None => false end; Njoy_Model.run := run a; Njoy_Model.plot := plotted a;
     Njoy_Model.chi := chi a; Njoy_Model.nu := nu a; Njoy_Model.iwt1 := own_weights a;
     Njoy_Model.weights := match user_flux_weight_vals a with Some _ => true | None => false end |}.

(** *** What the inputs look like *)
(** The text of a number: not empty, without blanks, slashes, quotes and braces. *)
Definition numeral (t : text) : Prop := t <> [] /\ forall c, In c t -> ~ In c [sp; nl; "/"; "'"; "{"; "}"]%char.
(** A text that can stand between quotes. *)
Definition quotable (t : text) : Prop := ~ In nl t /\ ~ In quote t.
Record sensible (a : args) : Prop := {
  s_temps : temps_of a <> [] /\ Forall (fun t => numeral (shown t)) (temps_of a);
  s_groups : forall l, cov_energy_groups a = Some l -> l <> [] /\ Forall numeral l;
  s_weights : forall l, user_flux_weight_vals a = Some l -> l <> [] /\ Forall numeral l;
  s_error : numeral (error a);
  s_names : quotable (zsymam a) /\ quotable (fst (fst (lib a))) }.
