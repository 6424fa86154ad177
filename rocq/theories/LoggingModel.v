(** Loggers, handlers, and where a message is printed.

    Source: /repo/src/valori/utils/logging.py:11-271 and /repo/src/valori/utils/debugging.py:401-425
    ([setup_logging]).  Of Python's logging module: the tree of loggers by dotted names, levels, handlers
    with levels, propagation to the parents' handlers, and the handler of last resort.  The text of the
    messages, rotation and failures to open a file are left out. *)

From Coq Require Import String List Arith ZArith NArith Bool.
From Verif Require Import PyBase PyMore.
Import ListNotations.
Open Scope py_scope.
Open Scope nat_scope.

(** Where a handler prints: standard output (logging.py:39, 85), standard error (debugging.py:415), a
    file (logging.py:100, debugging.py:421). *)
Inductive sink : Type := Stdout | Stderr | LogFile (path : pystr).

(** A handler and its level; logging.py:39-42, 85-88, 100-107; a handler without a level has 0
    (debugging.py:415-423). *)
Record handler : Type := MkHandler { hd_sink : sink; hd_level : nat }.

(** A logger: its level (0: not set) and handlers; logging.py:22-41. *)
Record logger : Type := MkLogger { lg_level : nat; lg_handlers : list handler }.

(** A logger's name, split at the dots; the root's is empty; logging.py:22, 78. *)
Notation lname := (list pystr) (only parsing).

(** Python's table of loggers; a name not in it has no level and no handlers; logging.py:22. *)
Definition logs : Type := dict lname logger.

(** [logging.getLogger(name)]; logging.py:22, 78; debugging.py:411. *)
Definition logger_of (n : lname) (s : logs) : logger :=
  match dget n s with Some l => l | None => MkLogger 0 [] end.

(** The loggers before any call, as Python makes them (logging.py:5): the root's level is WARNING. *)
Definition logs_new : logs := [([], MkLogger 30 [])].

(** [name.split(".")]: the path of a name; [""] and ["root"] name the root; logging.py:22. *)
Fixpoint split_dots (s : pystr) : list pystr :=
  match s with
  | [] => [[]]
  | c :: s' =>
      if (c =? 46)%N then [] :: split_dots s'
      else match split_dots s' with [] => [[c]] | w :: ws => (c :: w) :: ws end
  end.
(** The path; logging.py:22. *)
Definition path_of (s : pystr) : lname :=
  if eqb s [] || eqb s (py "root") then [] else split_dots s.

(** A logger and its ancestors, the root last: where a message is handed on; logging.py:123. *)
Fixpoint chain (fuel : nat) (n : lname) : list lname :=
  match fuel with
  | 0 => [n]
  | S fuel => n :: match n with [] => [] | _ => chain fuel (removelast n) end
  end.
(** The same, with fuel enough; logging.py:123. *)
Definition ancestors (n : lname) : list lname := chain (length n) n.

(** [getEffectiveLevel]: the first level set, going up; logging.py:123. *)
Fixpoint first_level (s : logs) (l : list lname) : nat :=
  match l with
  | [] => 0
  | n :: l' => if Nat.eqb (lg_level (logger_of n s)) 0 then first_level s l' else lg_level (logger_of n s)
  end.

(** [logger.log(severity, message)]: where it is printed, in order; logging.py:123, 140, 164, 180, 204, 223,
    237-239, 253-255, 269-271.  The handler of last resort prints warnings on standard error. *)
Definition emit (n : lname) (severity : nat) (s : logs) : list sink :=
  if first_level s (ancestors n) <=? severity
  then
    let handlers := flat_map (fun a => lg_handlers (logger_of a s)) (ancestors n) in
    match handlers with
    | [] => if 30 <=? severity then [Stderr] else []
    | _ => map hd_sink (filter (fun h => hd_level h <=? severity) handlers)
    end
  else [].

(** An attribute of the logging module that [level.upper()] can name, given to [setLevel]:
    logging.py:29-30, 72, 79; debugging.py:403, 412.  [None]: there is no such attribute. *)
Definition level_attr (s : pystr) : option (result nat) :=
  if eqb s (py "DEBUG") then Some (Ok 10)
  else if eqb s (py "INFO") then Some (Ok 20)
  else if eqb s (py "WARNING") || eqb s (py "WARN") then Some (Ok 30)
  else if eqb s (py "ERROR") then Some (Ok 40)
  else if eqb s (py "CRITICAL") || eqb s (py "FATAL") then Some (Ok 50)
  else if eqb s (py "NOTSET") then Some (Ok 0)
  else if eqb s (py "BASIC_FORMAT") then Some (Raise EValue)
  else if eqb s (py "_STYLES") then Some (Raise EType)
  else None.

(** The messages of logging.py:111-271. *)
Inductive message : Type :=
| MPerformance | MMemory | MOperation | MIndex | MSearch | MError | MWarning | MInfo | MDebug.

(** The name each asks for; logging.py:119, 135, 155, 176, 195, 215, 234, 250, 266. *)
Definition message_name (m : message) : pystr :=
  match m with
  | MPerformance => py "valori.performance"
  | MMemory => py "valori.memory"
  | MOperation => py "valori.operations"
  | MIndex => py "valori.index"
  | MSearch => py "valori.search"
  | MError => py "valori.error"
  | MWarning => py "valori.warning"
  | MInfo => py "valori.info"
  | MDebug => py "valori.debug"
  end.

(** The severity of each; logging.py:123, 140, 164, 180, 204, 223, 237-239, 253-255, 269-271. *)
Definition severity (m : message) : nat :=
  match m with
  | MError => 40
  | MWarning => 30
  | MDebug => 10
  | _ => 20
  end.

(** [logger.setLevel]; logging.py:30, 42, 79, 88, 107; debugging.py:412-423. *)
Definition set_level (n : lname) (v : nat) (s : logs) : logs :=
  dset n (MkLogger v (lg_handlers (logger_of n s))) s.
(** [logger.addHandler]; logging.py:42, 88, 107; debugging.py:417, 423. *)
Definition add_handler (n : lname) (h : handler) (s : logs) : logs :=
  dset n (MkLogger (lg_level (logger_of n s)) (lg_handlers (logger_of n s) ++ [h])) s.

Section Upper.
  (** [str.upper]; logging.py:29, 72; debugging.py:403. *)
  Context (upper : pystr -> pystr).

  (** [getattr(logging, level.upper(), logging.INFO)]; logging.py:29, 72. *)
  Definition numeric_level (level : pystr) : result nat :=
    match level_attr (upper level) with Some r => r | None => Ok 20 end.

  (** [get_logger(name, level)]; logging.py:11-44. *)
  Definition get_logger (name level : pystr) : M logs unit :=
    s <- get ;;
    let n := path_of name in
    match lg_handlers (logger_of n s) with
    | _ :: _ => ret tt
    | [] =>
        v <- lift (numeric_level level) ;;
        modify (set_level n v) ;;;
        modify (add_handler n (MkHandler Stdout v))
    end.

  (** [setup_logging(config)] with the level and, if a file is asked for, its path; logging.py:47-108. *)
  Definition setup_logging (level : pystr) (file : option pystr) : M logs unit :=
    v <- lift (numeric_level level) ;;
    modify (set_level [] v) ;;;
    modify (fun s => dset [] (MkLogger (lg_level (logger_of [] s)) []) s) ;;;
    modify (add_handler [] (MkHandler Stdout v)) ;;;
    match file with
    | Some f => modify (add_handler [] (MkHandler (LogFile f) v))
    | None => ret tt
    end.

  (** [setup_logging(level, log_file)] of the debugging tools; debugging.py:401-425. *)
  Definition debug_setup (level : pystr) (file : option pystr) : M logs unit :=
    match level_attr (upper level) with
    | None => raise EAttr
    | Some r =>
        v <- lift r ;;
        modify (set_level [py "valori"] v) ;;;
        modify (add_handler [py "valori"] (MkHandler Stderr 0)) ;;;
        match file with
        | Some f => modify (add_handler [py "valori"] (MkHandler (LogFile f) 0))
        | None => ret tt
        end
    end.

  (** [log_performance] and its eight companions: where the message is printed; logging.py:111-271. *)
  Definition log_message (m : message) : M logs (list sink) :=
    get_logger (message_name m) (py "INFO") ;;;
    s <- get ;;
    ret (emit (path_of (message_name m)) (severity m) s).

  (** The calls; logging.py:11-271, debugging.py:401-425. *)
  Inductive log_op : Type :=
  | OGet (name level : pystr)
  | OSetup (level : pystr) (file : option pystr)
  | ODebugSetup (level : pystr) (file : option pystr)
  | OLog (m : message).

  (** A call's effect, and for [OLog] the places where the message is printed; logging.py:11-271. *)
  Definition log_step (o : log_op) : M logs (list sink) :=
    match o with
    | OGet n l => get_logger n l ;;; ret []
    | OSetup l f => setup_logging l f ;;; ret []
    | ODebugSetup l f => debug_setup l f ;;; ret []
    | OLog m => log_message m
    end.
  (** A sequence of calls; logging.py:11-271. *)
  Definition logs_after (ops : list log_op) : logs := fold_left (fun s o => snd (log_step o s)) ops logs_new.
End Upper.
