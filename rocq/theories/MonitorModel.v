(** The resource monitor and the progress bar.

    Source: /repo/src/valori/utils/batch_manager.py:306-354 ([ProgressTracker]) and 357-432
    ([ResourceMonitor]).  Clock, memory and processor readings are rationals; printing the description,
    the times and the percentage is left out. *)

From Coq Require Import List Arith ZArith NArith QArith Qround Bool.
From Verif Require Import PyBase PyMore ProfileModel.
Import ListNotations.
Open Scope nat_scope.

(** ** The resource monitor *)

(** One reading; batch_manager.py:396-402. *)
Record reading : Type := MkReading { rd_time : Q; rd_memory : Q; rd_cpu : Q }.

(** Where a monitoring thread is: importing psutil (batch_manager.py:386-389), at the loop's test (391),
    about to read (393-402), asleep (404), finished. *)
Inductive tpc : Type := TImport | TTest | TRead | TSleep | TDone.

(** Where a caller is: outside the monitor; in [start_monitoring] before the test, the assignment and
    the thread's creation (batch_manager.py:368, 371-372, 373-376; creating the thread and starting it is
    one step); in [stop_monitoring] before the assignment and the test (380-381), and waiting for a
    thread (382). *)
Inductive cpc : Type := CIdle | CStart | CStartSet | CStartThread | CStop | CStopTest | CJoin (t : nat).

(** The monitor, its threads in the order of their creation, and its callers;
    batch_manager.py:360-364. *)
Record mstate : Type := MkMstate {
  ms_monitoring : bool;
  ms_thread : option nat;
  ms_data : list reading;
  ms_threads : list tpc;
  ms_callers : list cpc
}.

(** What a thread's next step does: go on (with this reading, if it reads), or raise;
    batch_manager.py:386-409. *)
Inductive tevent : Type := TGo (r : reading) | TRaise.

(** A step of the whole: a caller begins a call, a caller goes on, a thread goes on;
    batch_manager.py:366-409. *)
Inductive mlabel : Type :=
| LStart (c : nat)
| LStop (c : nat)
| LCaller (c : nat)
| LThread (t : nat) (e : tevent).

(** The monitor before any call; batch_manager.py:360-364. *)
Definition mnew (callers : nat) : mstate := MkMstate false None [] [] (repeat CIdle callers).

(** A caller moves on; batch_manager.py:366-382. *)
Definition set_caller (c : nat) (p : cpc) (s : mstate) : mstate :=
  MkMstate (ms_monitoring s) (ms_thread s) (ms_data s) (ms_threads s) (set_nth c p (ms_callers s)).

(** [self.monitoring = b]; batch_manager.py:371, 380. *)
Definition set_monitoring (b : bool) (s : mstate) : mstate :=
  MkMstate b (ms_thread s) (ms_data s) (ms_threads s) (ms_callers s).

(** A caller's next step; batch_manager.py:366-382.  [None]: it cannot go on. *)
Definition caller_step (c : nat) (s : mstate) : option mstate :=
  match nth_error (ms_callers s) c with
  | Some CStart =>
      Some (set_caller c (if ms_monitoring s then CIdle else CStartSet) s)
  | Some CStartSet => Some (set_caller c CStartThread (set_monitoring true s))
  | Some CStartThread =>
      Some (set_caller c CIdle
        (MkMstate (ms_monitoring s) (Some (length (ms_threads s))) (ms_data s) (ms_threads s ++ [TImport]) (ms_callers s)))
  | Some CStop => Some (set_caller c CStopTest (set_monitoring false s))
  | Some CStopTest =>
      Some (set_caller c (match ms_thread s with Some t => CJoin t | None => CIdle end) s)
  | Some (CJoin t) =>
      match nth_error (ms_threads s) t with
      | Some TDone => Some (set_caller c CIdle s)
      | _ => None
      end
  | _ => None
  end.

(** A thread's next step, [_monitor_loop]; batch_manager.py:384-409.  Every exception within the loop
    ends it (406-407), as does a missing psutil (408-409). *)
Definition thread_step (t : nat) (e : tevent) (s : mstate) : option mstate :=
  let move p d := Some (MkMstate (ms_monitoring s) (ms_thread s) d (set_nth t p (ms_threads s)) (ms_callers s)) in
  match nth_error (ms_threads s) t, e with
  | Some TImport, TGo _ => move TTest (ms_data s)
  | Some TImport, TRaise => move TDone (ms_data s)
  | Some TTest, _ => move (if ms_monitoring s then TRead else TDone) (ms_data s)
  | Some TRead, TGo r => move TSleep (ms_data s ++ [r])
  | Some TRead, TRaise => move TDone (ms_data s)
  | Some TSleep, TGo _ => move TTest (ms_data s)
  | Some TSleep, TRaise => move TDone (ms_data s)
  | _, _ => None
  end.

(** One step; batch_manager.py:366-409. *)
Definition mstep (l : mlabel) (s : mstate) : option mstate :=
  match l with
  | LStart c => match nth_error (ms_callers s) c with Some CIdle => Some (set_caller c CStart s) | _ => None end
  | LStop c => match nth_error (ms_callers s) c with Some CIdle => Some (set_caller c CStop s) | _ => None end
  | LCaller c => caller_step c s
  | LThread t e => thread_step t e s
  end.

(** An execution; batch_manager.py:366-409. *)
Fixpoint mrun (ls : list mlabel) (s : mstate) : option mstate :=
  match ls with
  | [] => Some s
  | l :: ls' => match mstep l s with Some s' => mrun ls' s' | None => None end
  end.

(** [get_summary]; batch_manager.py:411-432: [None] is the empty dictionary.  The totals that
    [figures_of] also computes are not part of the answer. *)
Definition monitor_summary (data : list reading) : result (option (Q * figures * figures)) :=
  match data with
  | [] => Ok None
  | first :: _ =>
      rbind (figures_of (map rd_memory data)) (fun m =>
      rbind (figures_of (map rd_cpu data)) (fun c =>
      Ok (Some (rd_time (last data first) - rd_time first, m, c)%Q)))
  end.

(** ** The progress bar *)

(** [int(x)] of a float: towards zero; batch_manager.py:345. *)
Definition trunc (x : Q) : Z := if Qle_bool 0 x then Qfloor x else Qceiling x.

(** A progress tracker: [total], [current], and the time of the last print;
    batch_manager.py:309-315. *)
Record tracker : Type := MkTracker { tk_total : Z; tk_current : Z; tk_last : Q }.

(** A printed line: the bar (how many blocks, then how many dashes), the share done, and the two
    numbers; batch_manager.py:343-354. *)
Record line : Type := MkLine { ln_blocks : nat; ln_dashes : nat; ln_progress : Q; ln_current : Z; ln_total : Z }.

(** [_print_progress]; batch_manager.py:332-354. *)
Definition print_progress (t : tracker) : result line :=
  if (tk_total t =? 0)%Z then Raise EZeroDiv
  else
    let progress := (inject_Z (tk_current t) / inject_Z (tk_total t))%Q in
    let filled := trunc (30 * progress) in
    Ok (MkLine (Z.to_nat filled) (Z.to_nat (30 - filled)) progress (tk_current t) (tk_total t)).

(** [ProgressTracker(total)] made at time [now]; batch_manager.py:309-315. *)
Definition tracker_new (total : Z) (now : Q) : tracker := MkTracker total 0 now.

(** [update]; batch_manager.py:317-324: the line printed, if any.  The update interval is one second. *)
Definition tk_update (increment : Z) (now : Q) : M tracker (option line) :=
  fun t =>
    let t := MkTracker (tk_total t) (tk_current t + increment) (tk_last t) in
    if Qle_bool 1 (now - tk_last t)%Q
    then match print_progress t with
         | Ok l => (Ok (Some l), MkTracker (tk_total t) (tk_current t) now)
         | Raise e => (Raise e, t)
         end
    else (Ok None, t).

(** [finish]; batch_manager.py:326-330. *)
Definition tk_finish : M tracker line :=
  fun t => let t := MkTracker (tk_total t) (tk_total t) (tk_last t) in (print_progress t, t).
