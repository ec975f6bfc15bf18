(** The file of the log in the hands of many threads: the part of LogWizardEventList that writes to the file and
    CloseWizardLog (wizard/log.c:338-359, 1283-1386), step by step: every read of log_info->file, every call that uses it
    and every lock is a step of its own, and any thread may take the next step.
    Simplified: one entry of the log cache, logging to a file only; the texts of events are numbers; rotation happens when the
    scheduler says that the file is large; of the start of a file "<log>" only is told (the declaration is in LogModel.v). *)
From Coq Require Import Arith NArith Bool List.
From Verif Require Import Base Outcome.
Import ListNotations.

(** where a thread is; [x]: the text of its event *)
Inductive pc :=
| Idle
| Wait (x : N)      (* log.c:1290: LockSemaphoreInfo(log_info->event_semaphore) *)
| Sized (x : N)     (* 1331: log_info->file != NULL *)
| Stat (x : N)      (* 1332: fstat *)
| Ending (x : N)    (* 1335: fprintf of </log> *)
| Closing (x : N)   (* 1336: fclose *)
| Forget (x : N)    (* 1337: log_info->file=NULL *)
| Opens (x : N)     (* 1339: log_info->file == NULL *)
| Open (x : N)      (* 1344-1361: fopen *)
| Head (x : N)      (* 1363-1366: fprintf of <log> *)
| Write (x : N)     (* 1368: fprintf of the event *)
| Flush (x : N)     (* 1369: fflush *)
| Leave (x : N)     (* 1381-1384: the text is freed, the semaphore unlocked *)
| CWait             (* 351: LockSemaphoreInfo(log_semaphore) *)
| CTest             (* 352 *)
| CEnd              (* 354: fprintf of </log> *)
| CClose            (* 355: fclose *)
| CForget           (* 356: log_info->file=NULL *)
| CLeave.           (* 358 *)
Inductive item := Start | Event (x : N) | End.
Inductive call := Log (x : N) | Close.

(** [field]: log_info->file, a stream by its number; [opened]: whether it is open; [outs]: what was written to it;
    [returned]: the events whose calls returned WizardTrue, in order; [lost]: texts of events never freed *)
Record state := mkState { field : option nat; opened : nat -> bool; count : nat; outs : nat -> list item;
  event_lock : option nat; log_lock : option nat; pcs : nat -> pc; returned : list N; lost : nat }.
Definition at_start : state := mkState None (fun _ => false) 0 (fun _ => []) None None (fun _ => Idle) [] 0.
Definition upd {A} (f : nat -> A) (k : nat) (v : A) : nat -> A := fun j => if Nat.eqb j k then v else f j.
Definition goto (s : state) (t : nat) (p : pc) : state :=
  mkState (field s) (opened s) (count s) (outs s) (event_lock s) (log_lock s) (upd (pcs s) t p) (returned s) (lost s).
Definition locks (s : state) (e l : option nat) : state :=
  mkState (field s) (opened s) (count s) (outs s) e l (pcs s) (returned s) (lost s).
Definition set_field (s : state) (f : option nat) : state :=
  mkState f (opened s) (count s) (outs s) (event_lock s) (log_lock s) (pcs s) (returned s) (lost s).
(** the stream of the field; a stream that is closed, or NULL, is undefined *)
Definition stream (s : state) : outcome nat :=
  match field s with Some k => if opened s k then Ok k else UB | None => UB end.
Definition fprintf (s : state) (i : item) : outcome state :=
  let* k := stream s in
  Ok (mkState (field s) (opened s) (count s) (upd (outs s) k (outs s k ++ [i])) (event_lock s) (log_lock s) (pcs s) (returned s) (lost s)).
Definition fclose (s : state) : outcome state :=
  let* k := stream s in
  Ok (mkState (field s) (upd (opened s) k false) (count s) (outs s) (event_lock s) (log_lock s) (pcs s) (returned s) (lost s)).
(** fopen_utf8 and the assignment to the field *)
Definition fopen (s : state) : state :=
  mkState (Some (count s)) (upd (opened s) (count s) true) (S (count s)) (outs s) (event_lock s) (log_lock s) (pcs s) (returned s) (lost s).
Definition finish (s : state) (x : N) : state :=
  mkState (field s) (opened s) (count s) (outs s) (event_lock s) (log_lock s) (pcs s) (returned s ++ [x]) (lost s).
Definition lose (s : state) : state :=
  mkState (field s) (opened s) (count s) (outs s) (event_lock s) (log_lock s) (pcs s) (returned s) (S (lost s)).

(** one step of thread t; [c]: the call it makes if it is idle; [b]: whether the file is large (1333) or can be opened (1352) *)
Definition step (s : state) (t : nat) (c : call) (b : bool) : outcome state :=
  match pcs s t with
  | Idle => Ok (goto s t (match c with Log x => Wait x | Close => CWait end))
  | Wait x => match event_lock s with None => Ok (goto (locks s (Some t) (log_lock s)) t (Sized x)) | Some _ => Ok s end
  | Sized x => Ok (goto s t (match field s with Some _ => Stat x | None => Opens x end))
  | Stat x => let* _ := stream s in Ok (goto s t (if b then Ending x else Opens x))
  | Ending x => let* s := fprintf s End in Ok (goto s t (Closing x))
  | Closing x => let* s := fclose s in Ok (goto s t (Forget x))
  | Forget x => Ok (goto (set_field s None) t (Opens x))
  | Opens x => Ok (goto s t (match field s with Some _ => Write x | None => Open x end))
  | Open x => if b then Ok (goto (fopen s) t (Head x)) else Ok (goto (locks (lose s) None (log_lock s)) t Idle)
  | Head x => let* s := fprintf s Start in Ok (goto s t (Write x))
  | Write x => let* s := fprintf s (Event x) in Ok (goto s t (Flush x))
  | Flush x => let* _ := stream s in Ok (goto s t (Leave x))
  | Leave x => Ok (goto (locks (finish s x) None (log_lock s)) t Idle)
  | CWait => match log_lock s with None => Ok (goto (locks s (event_lock s) (Some t)) t CTest) | Some _ => Ok s end
  | CTest => Ok (goto s t (match field s with Some _ => CEnd | None => CLeave end))
  | CEnd => let* s := fprintf s End in Ok (goto s t CClose)
  | CClose => let* s := fclose s in Ok (goto s t CForget)
  | CForget => Ok (goto (set_field s None) t CLeave)
  | CLeave => Ok (goto (locks s (event_lock s) None) t Idle)
  end.
Fixpoint run (s : state) (schedule : list (nat * call * bool)) : outcome state :=
  match schedule with
  | [] => Ok s
  | (t, c, b) :: schedule => let* s := step s t c b in run s schedule
  end.
