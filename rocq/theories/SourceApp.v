(** * The Source (model)

    apps/Source.cpp: a federate which publishes values made by signal generators at periodic times.  What a generator makes
    out of a time is not modelled: an event says which publication got the output of which generator for which time.  A relation [G]
    says which times requestTime may grant, as in PlayerApp.  [jump next period now] is what 374-377 make of nextTime when a grant
    came more than a period late; it is computed in floating point, so the function is a parameter.  Output to the console is left
    out, so are calls of setStartTime and setPeriod after initialize, and overflow of Time. *)
From Coq Require Import String ZArith Bool List Lia Arith.
Import ListNotations.
Open Scope list_scope.
Open Scope Z_scope.

(** helicsTime.hpp Time::maxVal *)
Definition maxTime : Z := 2 ^ 63 - 1.
(** Source.hpp:24-33 SourceObject as configured: nextTime (setStartTime), period, generatorIndex (-1 when not linked), generatorName ("" when not linked) *)
Record config : Type := mkConfig { cf_start : Z; cf_period : Z; cf_index : Z; cf_name : string }.
(** Source.hpp:24-33 SourceObject after initialize *)
Record source : Type := mkSource { sc_next : Z; sc_period : Z; sc_gen : Z }.
(** the publication with this index publishes generators[e_gen]->generate(e_time) *)
Record event : Type := mkEvent { e_pub : nat; e_gen : Z; e_time : Z }.
(** Source.cpp:295-310 addSignalGenerator: generatorLookup.emplace keeps the first of equal names *)
Fixpoint lookup (gens : list string) (i : Z) (name : string) : option Z :=
  match gens with
  | [] => None
  | g :: r => if (g =? name)%string then Some i else lookup r (i + 1) name
  end.
(** Source.cpp:197-224 the loop of initialize for one publication; [ii] is never incremented there, so it is 0 *)
Definition initSource (gens : list string) (c : config) : source :=
  if cf_index c <? 0 then
    if negb (cf_name c =? "")%string then
      match lookup gens 0 (cf_name c) with
      | Some i => mkSource (cf_start c) (cf_period c) i
      | None => mkSource maxTime (cf_period c) 0
      end
    else let ii := 0 in
      mkSource (cf_start c) (cf_period c) (if ii <? Z.of_nat (length gens) then ii else 0)
  else if Z.of_nat (length gens) <=? cf_index c then mkSource maxTime (cf_period c) (cf_index c)
  else mkSource (cf_start c) (cf_period c) (cf_index c).

Section Run.
(** the number of generators; the arithmetic of 374-377; the times granted *)
Variable ngen : Z.
Variable jump : Z -> Z -> Z -> Z.
Variable G : Z -> Z -> Z -> Prop.
(** Source.cpp:365-380 runSource: the new object, what it publishes, the time returned *)
Definition runSource (i : nat) (now : Z) (s : source) : source * list event * Z :=
  if sc_next s <=? now then
    if ngen <=? sc_gen s then (s, [], maxTime)
    else
      let n := sc_next s + sc_period s in
      let n' := if n <? now then jump n (sc_period s) now else n in
      (mkSource n' (sc_period s) (sc_gen s), [mkEvent i (sc_gen s) now], n')
  else (s, [], sc_next s).
(** Source.cpp:384-392 runSourceLoop before time zero *)
Fixpoint early (i : nat) (now : Z) (ss : list source) : list source * list event :=
  match ss with
  | [] => ([], [])
  | s :: r =>
      let (r', es) := early (S i) now r in
      if sc_next s <? 0 then
        let '(s1, e, _) := runSource i now s in (mkSource 0 (sc_period s1) (sc_gen s1) :: r', e ++ es)
      else (s :: r', es)
  end.
(** Source.cpp:393-400 runSourceLoop from time zero on *)
Fixpoint sweep (i : nat) (now : Z) (ss : list source) : list source * list event * Z :=
  match ss with
  | [] => ([], [], maxTime)
  | s :: r =>
      let '(s1, e, t) := runSource i now s in
      let '(r', es, m) := sweep (S i) now r in
      (s1 :: r', e ++ es, Z.min t m)
  end.
(** the current time of the federate, the publications, and what was published *)
Record state : Type := mkState { st_now : Z; st_src : list source; st_log : list event }.
(** Source.cpp:257-258: requestTime gives [g], then runSourceLoop *)
Definition step (g : Z) (s : state) : state :=
  let '(ss, es, _) := sweep 0 g (st_src s) in mkState g ss (st_log s ++ es).
(** the time runSourceLoop returns, with it *)
Definition stepNext (g : Z) (s : state) : Z := snd (sweep 0 g (st_src s)).
(** Source.cpp:256-263 the main loop from nextRequestTime [n] *)
Inductive loop (stop : Z) : Z -> state -> state -> Prop :=
| L_end n s : ~ (n < maxTime /\ n <= stop) -> loop stop n s s
| L_more n s g s' : n < maxTime -> n <= stop -> G (st_now s) n g -> loop stop (stepNext g s) (step g s) s' -> loop stop n s s'.
(** Source.cpp:237-244: runSourceLoop(-epsilon), enterExecutingMode, then runSourceLoop(0) follows as a [step 0] *)
Definition startUp (ss : list source) : state :=
  let (ss1, es) := early 0 (-1) ss in mkState 0 ss1 es.
(** Source.cpp:236, 247-253 nextRequestTime of a further runTo *)
Definition firstRequest (s : state) : Z := fold_right (fun x m => Z.min (sc_next x) m) maxTime (st_src s).
(** Source.cpp:229-264 a first runTo and further ones *)
Inductive runs (ss : list source) : list Z -> state -> Prop :=
| R_first stop s : loop stop (stepNext 0 (startUp ss)) (step 0 (startUp ss)) s -> runs ss [stop] s
| R_next stops s stop s' : runs ss stops s -> loop stop (firstRequest s) s s' -> runs ss (stops ++ [stop]) s'.
End Run.
(** Source::runTo with stop times [stops] on a new Source with these generators and publications *)
Definition sourceRuns jump G (gens : list string) (cfgs : list config) (stops : list Z) (s : state) : Prop :=
  runs (Z.of_nat (length gens)) jump G (map (initSource gens) cfgs) stops s.
