(** The text of NJOY decks.
    Source: /repo/ASAPy/njoy.py:46-80, 96-328 (templates), 421-686 (make_njoy_run),
    705-826 (make_ace_thermal).
    Simplifications: [str.format] knows field names only (the templates use no
    conversions and no format specifications; [data.name] counts as a name); the local
    variables are those the templates use; numbers that are only printed are given as
    their text (str(e), and {:.1f} of a temperature); what is read from the ENDF
    files is an argument; warnings printed and the reading of finished ACE files
    (njoy.py:669-684) are left out: it is only reached with [run], which fails before. *)
From Coq Require Import List Bool Arith ZArith Ascii String.
From Verif Require Import Text Dec.
From Verif Require Njoy_Model.
Import ListNotations.
Local Open Scope nat_scope.
Local Open Scope list_scope.

(** *** [str.format] *)
(** A piece of a format string: a character, or a field to be replaced. *)
Inductive piece := Lit (c : ascii) | Field (name : text).
(** Python's parser of format strings: doubled braces stand for themselves, a field
    ends at the next closing brace; [field] holds the name read so far.  [None]:
    ValueError. *)
Fixpoint parse (field : option text) (s : text) : option (list piece) :=
  match s with
  | [] => match field with None => Some [] | Some _ => None end
  | c :: r =>
      match field with
      | Some n =>
          if eqc c "}" then option_map (cons (Field n)) (parse None r)
          else if eqc c "{" then None
          else parse (Some (n ++ [c])) r
      | None =>
          if eqc c "{" then
            match r with
            | c' :: r' => if eqc c' "{" then option_map (cons (Lit c)) (parse None r') else parse (Some []) r
            | [] => None
            end
          else if eqc c "}" then
            match r with
            | c' :: r' => if eqc c' "}" then option_map (cons (Lit c)) (parse None r') else None
            | [] => None
            end
          else option_map (cons (Lit c)) (parse None r)
      end
  end.
(** The local variables, as printed; [None]: not set (KeyError in [format],
    UnboundLocalError in code). *)
Definition locals := text -> option text.
Fixpoint fill (e : locals) (ps : list piece) : option text :=
  match ps with
  | [] => Some []
  | Lit c :: r => option_map (cons c) (fill e r)
  | Field n :: r => match e n, fill e r with Some v, Some t => Some (v ++ t) | _, _ => None end
  end.
(** [t.format with e]. *)
Definition format (e : locals) (t : text) : option text :=
  match parse None t with Some ps => fill e ps | None => None end.

(** *** The templates *)
(** njoy.py:96-105. *)
Definition T_RECONR : text := (str "
reconr / %%%%%%%%%%%%%%%%%%% Reconstruct XS for neutrons %%%%%%%%%%%%%%%%%%%%%%%
{nendf} {npendf}
'{library} PENDF for {zsymam}'/
{mat} 2/
{error}/ err
'{library}: {zsymam}'/
'Processed by NJOY'/
0/
").

(** njoy.py:107-114. *)
Definition T_BROADR : text := (str "
broadr / %%%%%%%%%%%%%%%%%%%%%%% Doppler broaden XS %%%%%%%%%%%%%%%%%%%%%%%%%%%%
{nendf} {npendf} {nbroadr}
{mat} {num_temp} 0 0 0. /
{error}/ errthn
{temps}
0/
").

(** njoy.py:116-121. *)
Definition T_HEATR : text := (str "
heatr / %%%%%%%%%%%%%%%%%%%%%%%%% Add heating kerma %%%%%%%%%%%%%%%%%%%%%%%%%%%%
{nendf} {nheatr_in} {nheatr} /
{mat} 3 /
302 318 402 /
").

(** njoy.py:123-130. *)
Definition T_PURR : text := (str "
purr / %%%%%%%%%%%%%%%%%%%%%%%% Add probability tables %%%%%%%%%%%%%%%%%%%%%%%%%
{nendf} {npurr_in} {npurr} /
{mat} {num_temp} 1 20 64 /
{temps}
1.e10
0/
").

(** njoy.py:132-140. *)
Definition T_ACER : text := (str "
acer / %%%%%%%%%%%%%%%%%%%%%%%% Write out in ACE format %%%%%%%%%%%%%%%%%%%%%%%%
{nendf} {nacer_in} 0 {nace} {ndir}
1 0 1 .{ext} /
'{library}: {zsymam} at {temperature}'/
{mat} {temperature}
1 1/
/
").

(** njoy.py:156-164. *)
Definition T_GROUPR_PLOT_HEAD : text := (str "
groupr
{nendf} {ngroupr_in} 0 {ngroupr_out}/
{mat} 1 0 {iwt_fluxweight} 1 {num_temp}/ user groups, weight flux
nu and chi / 
{temps}/
1e10/ background sigma (need to include ""inf"")
{cov_ngroups}/
{cov_group_bounds}/").

(** njoy.py:171-178. *)
Definition T_GROUPR_PLOT_TEMP : text := (str "
3 452 'nu'/
3 455 'p nu'/
3 456 'd nu'/
3 18 'fiss'/
5 18 'chi'/
0/
").

(** njoy.py:183-192. *)
Definition T_GROUPR_XSEC_HEAD : text := (str "
groupr / %%%%%%%%%%%%%%%%%%%%%%%% Create shielded xsec %%%%%%%%%%%%%%%%%%%%%%%%%
{nendf} {ngroupr_in} 0 {ngroupr_out}/
{mat} 1 0 {iwt_fluxweight} 1 {num_temp}/ user groups, weight flux
xsec / 
{temps}/
1e10/ background sigma (need to include ""inf"")/
{cov_ngroups}/
{cov_group_bounds}/
").

(** njoy.py:200-210. *)
Definition T_GROUPR_USER_HEAD : text := (str "
groupr / %%%%%%%%%%%%%%%%%%%%%%%% Create shielded xsec %%%%%%%%%%%%%%%%%%%%%%%%%
{nendf} {ngroupr_in} 0 {ngroupr_out}/
{mat} 1 0 1 1 {num_temp}/ user groups, user weight flux
xsec / 
{temps}/
1e10/ background sigma (need to include ""inf"")/
{cov_ngroups}/
{cov_group_bounds}/
{user_flux_weight}/
").

(** njoy.py:218-229. *)
Definition T_THERMR : text := (str "
thermr / %%%%%%%%%%%%%%%% Add thermal scattering data (free gas) %%%%%%%%%%%%%%%
0 {nthermr1_in} {nthermr1}
0 {mat} 12 {num_temp} 1 0 {iform} 1 221 1/
{temps}
{error} {energy_max}
thermr / %%%%%%%%%%%%%%%% Add thermal scattering data (bound) %%%%%%%%%%%%%%%%%%
{nthermal_endf} {nthermr2_in} {nthermr2}
{mat_thermal} {mat} 16 {num_temp} {inelastic} {elastic} {iform} {natom} 222 1/
{temps}
{error} {energy_max}
").

(** njoy.py:237-245. *)
Definition T_ERRORR_33 : text := (str "
errorr / %%%%%%%%%%%%%%%%%%%%%%%%% Calc COV %%%%%%%%%%%%%%%%%%%%%%%%%%%%%%%%%%%%%%%%
{nendf} 0 {nerr_in} {nerr}/
{mat} 1 {iwt_fluxweight}/
0 {temperature}/
0 33/
{cov_ngroups}/
{cov_group_bounds}/
").

(** njoy.py:248-256. *)
Definition T_ERRORR_31 : text := (str "
errorr / %%%%%%%%%%%%%%%%%%%%%%%%% Calc COV %%%%%%%%%%%%%%%%%%%%%%%%%%%%%%%%%%%%%%%%
{nendf} {nerr_in} {ngroupr_out} {nerr}/
{mat} 1 {iwt_fluxweight}/ group struct, weight function
1 {temperature}/
0 31 1 1 -1/
{cov_ngroups}/
{cov_group_bounds}/
").

(** njoy.py:260-268. *)
Definition T_ERRORR_35 : text := (str "
errorr / %%%%%%%%%%%%%%%%%%%%%%%%% Calc COV %%%%%%%%%%%%%%%%%%%%%%%%%%%%%%%%%%%%%%%%
{nendf} {nerr_in} {ngroupr_out} {nerr}/
{mat} 1 {iwt_fluxweight}/ group struct, weight function
1 {temperature}/
0 35 1 1 -1/
{cov_ngroups}/
{cov_group_bounds}/
").

(** njoy.py:285-291. *)
Definition T_COVR_PLOT_HEAD : text := (str "
covr / %%%%%%%%%%%%%%%%%%%%%%%%% Create Cov Info (PLOT) %%%%%%%%%%%%%%%%%%%%%%%%%%%%
{{nerr}} 0 {{covr_plot_out}}/
1/
/
1 {n_mats}/
").

(** njoy.py:305-312. *)
Definition T_COVR_LIB : text := (str "
covr / %%%%%%%%%%%%%%%%%%%%%%%%% Create Cov Info (DATA) %%%%%%%%%%%%%%%%%%%%%%%%%%%%
{nerr} {covr_out}/
3/
corr/
/
{mat}/
").

(** njoy.py:314-317. *)
Definition T_VIEWR : text := (str "
viewr / %%%%%%%%%%%%%%%%%%%%%%%%% Create Plots %%%%%%%%%%%%%%%%%%%%%%%%%%%%%%%
{covr_plot_out} {viewr_plot_out}/
").

(** njoy.py:319-327. *)
Definition T_THERMAL_ACER : text := (str "
acer / %%%%%%%%%%%%%%%%%%%%%%%% Write out in ACE format %%%%%%%%%%%%%%%%%%%%%%%%
{nendf} {nthermal_acer_in} 0 {nace} {ndir}
2 0 1 .{ext}/
'{library}: {zsymam_thermal} processed by NJOY'/
{mat} {temperature} '{data.name}' /
{zaids} /
222 64 {mt_elastic} {elastic_type} {data.nmix} {energy_max} 2/
").

(** njoy.py:165-180; make_njoy_run never passes a flux weight. *)
Definition T_GROUPR_PLOT (num_temp : nat) : text :=
  T_GROUPR_PLOT_HEAD ++ concat (repeat T_GROUPR_PLOT_TEMP num_temp) ++ str "0/" ++ [nl].
(** njoy.py:194-197. *)
Definition T_GROUPR_XSEC (num_temp : nat) : text :=
  T_GROUPR_XSEC_HEAD ++ concat (repeat (str "3/" ++ [nl] ++ str "0/" ++ [nl]) num_temp) ++ str "0/" ++ [nl].
(** njoy.py:212-215. *)
Definition T_GROUPR_USER (num_temp : nat) : text :=
  T_GROUPR_USER_HEAD ++ concat (repeat (str "3/" ++ [nl] ++ str "0/" ++ [nl]) num_temp) ++ str "0/" ++ [nl].
(** A number as [str] prints it. *)
Definition num (n : nat) : text := decZ (Z.of_nat n).
(** A variable is set. *)
Definition set (k : string) (v : text) (e : locals) : locals := fun x => if eqt x (str k) then Some v else e x.
Definition none : locals := fun _ => None.
(** njoy.py:292-302. *)
Definition T_COVR_PLOT (mts : list Z) : option text :=
  let num_mts := match mts with [] => 1 | _ => List.length mts end in
  match format (set "n_mats" (num num_mts) none) T_COVR_PLOT_HEAD with
  | None => None
  | Some s =>
      let s := match mts with [] => s ++ str "{mat}/" ++ [nl] | _ => s end in
      fold_left (fun s mt =>
        match s, format (set "mt" (decZ mt) none) (str "{{mat}} {mt} {{mat}} {mt}/" ++ [nl]) with
        | Some s, Some x => Some (s ++ x) | _, _ => None
        end) mts (Some s)
  end.

(** *** make_njoy_run *)
(** A temperature as [str] and as [{:.1f}] prints it. *)
Record temperature := { shown : text; tenths : text }.
(** njoy.py:421-425 and what is read from the evaluation (njoy.py:480-485): the MAT
    number, the name of the target, the library with version and release. *)
Record args := { filename : text; mat : Z; zsymam : text; lib : text * Z * Z; temperatures : option (list temperature);
  ace : text; xsdir : text; pendf : option text; error : text; broadr : bool; heatr : bool; purr : bool; acer : bool; errorr : bool;
  cov_energy_groups : option (list text); run : bool; covr_plot_mts : list Z; chi : bool; nu : bool; iwt_fluxweight : Z;
  user_flux_weight_vals : option (list text) }.
(** njoy.py:487-488. *)
Definition temps_of (a : args) : list temperature :=
  match temperatures a with Some l => l | None => [{| shown := str "293.6"; tenths := str "293.6" |}] end.
(** [sep.join(ws)]. *)
Fixpoint joined (sep : text) (ws : list text) : text :=
  match ws with [] => [] | [w] => w | w :: r => w ++ sep ++ joined sep r end.
(** njoy.py:485. *)
Definition library (l : text * Z * Z) : text := let '(n, v, r) := l in n ++ str "-" ++ decZ v ++ str "." ++ decZ r.

(** What is built up: the local variables, the commands, tapeout, [nlast]. *)
Record st := { env : locals; cmds : text; outs : list (nat * text); nlast : nat }.
Definition put (k : string) (v : text) (s : st) : st := {| env := set k v (env s); cmds := cmds s; outs := outs s; nlast := nlast s |}.
Definition say (t : text) (s : st) : st := {| env := env s; cmds := cmds s ++ t; outs := outs s; nlast := nlast s |}.
Definition up (n : nat) (s : st) : st := {| env := env s; cmds := cmds s; outs := outs s; nlast := n |}.
Definition tape (n : nat) (f : text) (s : st) : st := {| env := env s; cmds := cmds s; outs := Njoy_Model.set_item n f (outs s); nlast := nlast s |}.
(** [k = k']. *)
Definition alias (k k' : string) (s : st) : option st := option_map (fun v => put k v s) (env s (str k')).
(** [commands += t.format with the locals]. *)
Definition emit (t : text) (s : st) : option st := option_map (fun x => say x s) (format (env s) t).
Definition emit_plot (mts : list Z) (s : st) : option st := match T_COVR_PLOT mts with Some t => emit t s | None => None end.
(** [commands += user_flux_weight + "/\n"], if iwt_fluxweight == 1. *)
Definition say_weights (a : args) (s : st) : option st :=
  if (iwt_fluxweight a =? 1)%Z
  then option_map (fun v => say (v ++ str "/" ++ [nl]) s) (env s (str "user_flux_weight"))
  else Some s.
Definition bind {A B} (x : option A) (f : A -> option B) : option B := match x with Some a => f a | None => None end.
Notation "'do' x <- e ; f" := (bind e (fun x => f)) (at level 61, x name, e at next level, f at level 61, right associativity).
(** [fname.format(a, t) + e] for [fname = "{}_{}"]. *)
Definition named (b : string) (t : text) (e : string) : text := str b ++ str "_" ++ t ++ str e.

(** njoy.py:518-530: the text of the weight table. *)
Definition flux_weight (vals : list text) : text :=
  let np := num (List.length vals / 2) in
  str "0. 0. 0  0  1  " ++ np ++ str "  " ++ np ++ str "  2" ++ [nl] ++ joined (sp :: [nl]) vals.
(** njoy.py:532-569: one temperature; [bounds] are the covariance groups. *)
Definition one_temperature (a : args) (bounds : list text) (t : temperature) (s : st) : option st :=
  let k := List.length (temps_of a) in
  let s := put "temperature" (shown t) s in
  do s <- alias "ngroupr_in" "nbroadr" s;
  let s := put "ngroupr_out" (num (nlast s + 1)) s in
  let s := up (nlast s + 1) s in
  do s <- alias "nerr_in" "ngroupr_out" s;
  let s := put "nerr" (num (nlast s + 1)) s in
  let s := put "cov_group_bounds" (joined (sp :: [nl]) bounds) s in
  do s <- emit (if (iwt_fluxweight a =? 1)%Z then T_GROUPR_USER k else T_GROUPR_XSEC k) s;
  do s <- emit T_ERRORR_33 s;
  do s <- say_weights a s;
  let s := up (nlast s + 1) s in
  let s := put "covr_out" (num (nlast s + 1)) s in
  let s := tape (nlast s + 1) (named "covr" (shown t) ".txt") s in
  let s := up (nlast s + 1) s in
  do s <- emit T_COVR_LIB s;
  match covr_plot_mts a with
  | [] => Some s
  | mts =>
      let s := put "covr_plot_out" (num (nlast s + 1)) s in
      let s := up (nlast s + 1) s in
      let s := put "viewr_plot_out" (num (nlast s + 1)) s in
      let s := tape (nlast s + 1) (named "viewr" (shown t) ".eps") s in
      let s := up (nlast s + 1) s in
      do s <- emit_plot mts s;
      emit T_VIEWR s
  end.
Fixpoint each {A} (f : A -> st -> option st) (l : list A) (s : st) : option st :=
  match l with [] => Some s | x :: r => do s <- f x s; each f r s end.
(** njoy.py:571-578. *)
Definition fission_groups (a : args) (s : st) : option st :=
  let s := say ([nl] ++ str "-- Nu-bar / Chi groupr" ++ [nl]) s in
  do s <- alias "ngroupr_in" "nbroadr" s;
  let s := put "ngroupr_out" (num (nlast s + 1)) s in
  do s <- emit (T_GROUPR_PLOT (List.length (temps_of a))) s;
  Some (up (nlast s + 1) s).
(** njoy.py:580-602 (nu), 604-626 (chi): the same with another remark, template, list
    of reactions and file names; the temperature is the last one of the loop above. *)
Definition fission_part (a : args) (remark : text) (template : text) (mts : list Z) (covr viewr : string) (s : st) : option st :=
  let s := say remark s in
  do s <- alias "nerr_in" "nbroadr" s;
  let s := put "nerr" (num (nlast s + 1)) s in
  do s <- emit template s;
  do s <- say_weights a s;
  let s := up (nlast s + 1) s in
  let s := put "covr_plot_out" (num (nlast s + 1)) s in
  let s := up (nlast s + 1) s in
  let v := nlast s + 1 in
  let s := put "viewr_plot_out" (num v) s in
  let s := up v s in
  do s <- emit_plot mts s;
  do s <- emit T_VIEWR s;
  let s := put "covr_out" (num (nlast s + 1)) s in
  do t <- env s (str "temperature");
  let s := tape v (named viewr t ".eps") (tape (nlast s + 1) (named covr t ".txt") s) in
  let s := up (nlast s + 1) s in
  emit T_COVR_LIB s.
(** njoy.py:512-626. *)
Definition covariances (a : args) (s : st) : Njoy_Model.result st :=
  match cov_energy_groups a with
  | None => Njoy_Model.Raised Njoy_Model.NoGroups
  | Some bounds =>
      let s := put "cov_ngroups" (decZ (Z.of_nat (List.length bounds) - 1)) s in
      match (if (iwt_fluxweight a =? 1)%Z then option_map (fun l => put "user_flux_weight" (flux_weight l) s) (user_flux_weight_vals a) else Some s) with
      | None => Njoy_Model.Raised Njoy_Model.NoWeights
      | Some s =>
          match (do s <- each (one_temperature a bounds) (temps_of a) s;
                 do s <- if nu a || chi a then fission_groups a s else Some s;
                 do s <- if nu a then fission_part a [] T_ERRORR_31 [452]%Z "covr_nu" "viewr_nu" s else Some s;
                 if chi a then fission_part a (str "-- Chi info" ++ [nl]) T_ERRORR_35 [] "covr_chi" "viewr_chi" s else Some s) with
          | Some s => Njoy_Model.Ok s
          | None => Njoy_Model.Raised Njoy_Model.Unset
          end
      end
  end.
(** njoy.py:630-635. *)
Definition heat (s : st) : option st :=
  do s <- alias "nheatr_in" "nbroadr" s;
  let n := nlast s + 1 in
  Some (up n (say T_HEATR (put "nheatr" (num n) s))).
(** njoy.py:637-642. *)
Definition tables (s : st) : st :=
  let s := put "npurr_in" (num (nlast s)) s in
  let n := nlast s + 1 in
  up n (say T_PURR (put "npurr" (num n) s)).
(** [{:02}] of a positive number. *)
Definition two_digits (n : nat) : text := if n <? 10 then str "0" ++ num n else num n.
(** njoy.py:646-659, 813-826: one call of ACER per temperature, from the [i]-th on. *)
Fixpoint acers (template : text) (nin : nat) (ace xsdir : text) (i : nat) (l : list temperature) (s : st) : option st :=
  match l with
  | [] => Some s
  | t :: r =>
      let s := put "temperature" (shown t) s in
      let nace := nin + 1 + 2 * i in
      let ndir := nace + 1 in
      let s := put "ndir" (num ndir) (put "nace" (num nace) s) in
      let s := put "ext" (two_digits (i + 1)) s in
      do s <- emit template s;
      let s := tape ndir (xsdir ++ str "_" ++ tenths t) (tape nace (ace ++ str "_" ++ tenths t) s) in
      acers template nin ace xsdir (S i) r s
  end.
(** njoy.py:644: [commands = commands.format with the locals]. *)
Definition reformat (s : st) : option st := option_map (fun x => {| env := env s; cmds := x; outs := outs s; nlast := nlast s |}) (format (env s) (cmds s)).
(** njoy.py:480-504: before the covariances. *)
Definition started (a : args) : st :=
  let l := temps_of a in
  let s := {| env := none; cmds := []; outs := match pendf a with Some f => [(21, f)] | None => [] end; nlast := 21 |} in
  let s := put "iwt_fluxweight" (decZ (iwt_fluxweight a)) (put "error" (error a) s) in
  let s := put "library" (library (lib a)) (put "zsymam" (zsymam a) (put "mat" (decZ (mat a)) s)) in
  let s := put "temps" (joined [sp] (map shown l)) (put "num_temp" (num (List.length l)) s) in
  say T_RECONR (put "npendf" (num 21) (put "nendf" (num 20) s)).
(** njoy.py:506-510. *)
Definition broadened (a : args) (s : st) : st :=
  if broadr a then let n := nlast s + 1 in up n (say T_BROADR (put "nbroadr" (num n) s)) else s.
(** njoy.py:421-686; on success the commands (also written to njoy_in.txt), tapein and
    tapeout. *)
Definition make_njoy_run (a : args) : Njoy_Model.result (text * list (nat * text) * list (nat * text)) :=
  let s := broadened a (started a) in
  match (if errorr a then covariances a s else Njoy_Model.Ok s) with
  | Njoy_Model.Raised f => Njoy_Model.Raised f
  | Njoy_Model.Ok s =>
      match (do s <- if heatr a then heat s else Some s;
             let s := if purr a then tables s else s in
             do s <- reformat s;
             do s <- if acer a then acers T_ACER (nlast s) (ace a) (xsdir a) 0 (temps_of a) (put "nacer_in" (num (nlast s)) s) else Some s;
             Some (say (str "stop" ++ [nl]) s)) with
      | None => Njoy_Model.Raised Njoy_Model.Unset
      | Some s => if run a then Njoy_Model.Raised Njoy_Model.NotCallable else Njoy_Model.Ok (cmds s, [(20, filename a)], outs s)
      end
  end.
