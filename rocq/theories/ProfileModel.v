(** The profiler, the query analyser and their summaries.

    Source: /repo/src/valori/utils/debugging.py:20-114 ([PerformanceProfiler]) and 296-361
    ([QueryAnalyzer]).  Clock readings, memory readings and distances are rationals (exact arithmetic);
    standard deviations, norms and the printed reports are left out. *)

From Coq Require Import List Arith ZArith NArith QArith Bool.
From Verif Require Import PyBase PyMore.
Import ListNotations.
Open Scope py_scope.
Open Scope nat_scope.

(** ** Summaries of lists of numbers *)

(** [min(l)]; debugging.py:74, 80, 330, 354. *)
Definition py_min (l : list Q) : result Q :=
  match l with
  | [] => Raise EValue
  | x :: l' => Ok (fold_left (fun a b => if Qle_bool a b then a else b) l' x)
  end.
(** [max(l)]; debugging.py:75, 81, 331, 355. *)
Definition py_max (l : list Q) : result Q :=
  match l with
  | [] => Raise EValue
  | x :: l' => Ok (fold_left (fun a b => if Qle_bool b a then a else b) l' x)
  end.
(** [sum(l)]; debugging.py:76-77. *)
Definition py_sum (l : list Q) : Q := fold_left Qplus l 0%Q.
(** [sum(l) / len(l)]; debugging.py:76, 82, and [np.mean] (328, 352) of a non-empty list. *)
Definition py_avg (l : list Q) : result Q :=
  match l with
  | [] => Raise EZeroDiv
  | _ => Ok (py_sum l / inject_Z (Z.of_nat (length l)))%Q
  end.

(** The four numbers of a summary; debugging.py:73-84. *)
Record figures : Type := MkFigures { fg_min : Q; fg_max : Q; fg_avg : Q; fg_total : Q }.
(** The four numbers of a non-empty list; debugging.py:73-84. *)
Definition figures_of (l : list Q) : result figures :=
  rbind (py_min l) (fun a => rbind (py_max l) (fun b => rbind (py_avg l) (fun c => Ok (MkFigures a b c (py_sum l))))).

(** ** The profiler *)

(** One measurement; debugging.py:47-53. *)
Record measurement : Type := MkMeas { me_duration : Q; me_memory : Q; me_timestamp : Q }.

(** The clock, the memory in use, and the profiler's [measurements]; debugging.py:24, 30-31. *)
Record world : Type := MkWorld { w_clock : Q; w_memory : Q; w_measurements : dict pystr (list measurement) }.

(** [self.measurements[name]], empty when there is none; debugging.py:44-47. *)
Definition measured (n : pystr) (w : world) : list measurement :=
  match dget n (w_measurements w) with Some l => l | None => [] end.

(** [with self.measure(operation_name): body]; debugging.py:27-53.  The [finally] clause runs whether or
    not the body raises, and lets the exception pass. *)
Definition measure {A} (name : pystr) (body : M world A) : M world A :=
  fun w =>
    let (r, w') := body w in
    let m := MkMeas (w_clock w' - w_clock w) (w_memory w' - w_memory w) (w_clock w') in
    (r, MkWorld (w_clock w') (w_memory w') (dset name (measured name w' ++ [m]) (w_measurements w'))).

(** A measured program: it takes time and memory, raises, catches, and enters measured blocks
    (debugging.py:27).  Any program's run is one of these. *)
Inductive prog : Type :=
| PDone
| PWork (dt dm : Q)
| PSeq (p q : prog)
| PFail (e : exn)
| PTry (p q : prog)
| PMeasure (name : pystr) (p : prog).

(** Running a program under the profiler; debugging.py:27-53. *)
Fixpoint run (p : prog) : M world unit :=
  match p with
  | PDone => ret tt
  | PWork dt dm => modify (fun w => MkWorld (w_clock w + dt) (w_memory w + dm) (w_measurements w))
  | PSeq p q => run p ;;; run q
  | PFail e => raise e
  | PTry p q => catch (run p) (run q)
  | PMeasure n p => measure n (run p)
  end.

(** One operation of [get_summary]; debugging.py:68-85. *)
Record op_summary : Type := MkOpSummary { os_count : nat; os_duration : figures; os_memory : figures }.

(** [get_summary]; debugging.py:64-87. *)
Definition get_summary (w : world) : result (dict pystr op_summary) :=
  rmap (fun kl : pystr * list measurement =>
          let (operation, ms) := kl in
          rbind (figures_of (map me_duration ms)) (fun d =>
          rbind (figures_of (map me_memory ms)) (fun m =>
          Ok (operation, MkOpSummary (length ms) d m)))) (w_measurements w).

(** ** The query analyser *)

(** The distances of a query's results, when there are any; debugging.py:323-333. *)
Record query_stats : Type := MkQstats {
  qs_count : nat;
  qs_expected : Z;
  qs_time : Q;
  qs_distances : option (Q * Q * Q) (* mean, min, max *)
}.

(** [analyze_query]: a result is given by its distance, if it has one; debugging.py:302-338. *)
Definition analyze_query (results : list (option Q)) (k : Z) (search_time : Q) : M (list query_stats) query_stats :=
  fun history =>
    match
      match results with
      | [] => Ok None
      | _ =>
          rbind (rmap (fun r => match r with Some d => Ok d | None => Raise EKey end) results) (fun ds =>
          rbind (py_avg ds) (fun a => rbind (py_min ds) (fun b => rbind (py_max ds) (fun c => Ok (Some (a, b, c))))))
      end
    with
    | Raise e => (Raise e, history)
    | Ok d =>
        let analysis := MkQstats (length results) k search_time d in
        (Ok analysis, history ++ [analysis])
    end.

(** [analyze_query_patterns]; debugging.py:340-361: [None] is the report of an error. *)
Definition analyze_query_patterns (history : list query_stats) : result (option (nat * figures * figures)) :=
  match history with
  | [] => Ok None
  | _ =>
      rbind (figures_of (map qs_time history)) (fun t =>
      rbind (figures_of (map (fun q => inject_Z (Z.of_nat (qs_count q))) history)) (fun c =>
      Ok (Some (length history, t, c))))
  end.
