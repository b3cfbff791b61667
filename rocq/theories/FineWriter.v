(** src/writer.rs and src/writer/output.rs once more, at the level of single
    operations on files: opening, writing a few characters, ending.  The model
    in Writer.v carries out one output at a time and writes its text in one
    piece.  Here the outputs of one [par_iter_mut().try_for_each] call are
    tasks whose operations are interleaved in any way, a write may put only a
    part of the text into the file or fail, and the process may stop after any
    operation. *)

From Coq Require Import List ZArith NArith Bool String Ascii.
From Verif Require Import Base Num Config Mesh State NumFlux Time Writer.
Import ListNotations.
Local Open Scope string_scope.

(** ** Operations on files *)

(** The first [n] characters *)
Fixpoint str_take (n : nat) (s : string) : string :=
  match n, s with
  | O, _ => EmptyString
  | S _, EmptyString => EmptyString
  | S n, String c t => String c (str_take n t)
  end.

Definition text_at (w : world) (p : string) : string := match w_files w p with Some s => s | None => "" end.

Definition w_set (p s : string) (w : world) : world :=
  mkWorld (fun q => if String.eqb q p then Some s else w_files w q) (w_dirs w) (w_stdout w) (w_bad w).

(** [File::options().write(true).append(..).create(true).open(path)] on success:
    the file exists afterwards and its text is the old one,
    src/writer/output.rs L184-189, L198-203, L271-276 *)
Definition w_open (p : string) (w : world) : world := w_set p (text_at w p) w.

(** One [write] call of the operating system on the opened file: at the end of
    the file in [append] mode, otherwise over the text from position [pos] on *)
Definition w_put (p : string) (append : bool) (pos : nat) (s : string) (w : world) : world :=
  let old := text_at w p in
  w_set p (if append then old ++ s else str_take pos old ++ s ++ str_drop (pos + String.length s) old) w.

(** ** What one output does *)

Inductive target := Nowhere | Screen | ToFile (path : string) (append : bool).

(** The work of one closure call of [try_for_each]: where it writes, all the
    text it writes unless a write fails, how it ends then, and how it ends if a
    write fails. *)
Record job := mkJob { j_target : target; j_text : string; j_end : res unit; j_fault : res unit }.

Section Jobs.
Variable A : Num.
Variable fmt : nat -> nF A -> string.

(** Two pieces of code that write: the second runs only if the first ended with
    [Ok] (the [?] operator and panics) *)
Definition then_write (a b : string * res unit) : string * res unit :=
  match snd a with Ok _ => (fst a ++ fst b, snd b) | _ => a end.

(** src/writer/output.rs L246-259, [format_data_to_buffer] *)
Definition emit_data (o : output A) (d : data A) (j : nat) : string * res unit :=
  match format_data fmt o d j with
  | Ok s => (s, Ok tt)
  | Err e => ("", Err e)
  | Panic => ("", Panic)
  | Fuel => ("", Fuel)
  end.

(** src/writer/output.rs L236-239 *)
Fixpoint emit_rest (o : output A) (j : nat) (l : list (data A)) : string * res unit :=
  match l with
  | [] => ("", Ok tt)
  | d :: t => then_write (String (o_delim o) "", Ok tt) (then_write (emit_data o d j) (emit_rest o j t))
  end.

(** src/writer/output.rs L224-241, one row: the blank of the TSV format is
    written before [self.data[0]] may panic *)
Definition emit_line (o : output A) (j : nat) : string * res unit :=
  then_write (match o_format o with TSV => " " | CSV => "" end, Ok tt)
    match o_data o with
    | [] => ("", Panic)
    | d :: t => then_write (emit_data o d j) (then_write (emit_rest o j t) (newline, Ok tt))
    end.

Fixpoint emit_lines (o : output A) (js : list nat) : string * res unit :=
  match js with
  | [] => ("", Ok tt)
  | j :: t => then_write (emit_line o j) (emit_lines o t)
  end.

(** src/writer/output.rs L218-243, [write_into_stream] *)
Definition emit_stream (o : output A) : string * res unit :=
  then_write (match o_conv o with Scalar => if o_first o then header o else "" | Vector => header o end, Ok tt)
    (emit_lines o (seq 0 (o_rows o))).

(** src/writer/output.rs L177-215, [write_output]; a failing write ends it with
    an error through [?] *)
Definition output_job (counter : N) (o : output A) : job :=
  let e := emit_stream o in
  mkJob match o_stream o with
        | File => ToFile (out_path o counter) match o_conv o with Scalar => negb (o_first o) | Vector => false end
        | Stdout => Screen
        end (fst e) (snd e) (Err EIO).

(** src/writer/output.rs L262-283, [write_metadata]; [println!] panics if the
    screen cannot be written *)
Definition metadata_job (meta : string) (o : output A) : job :=
  if o_metadata o then
    match o_stream o with
    | Stdout => mkJob Screen (meta ++ newline) (Ok tt) Panic
    | File => mkJob (ToFile (o_file_name o ++ "_metadata.json") false) meta (Ok tt) (Err EIO)
    end
  else mkJob Nowhere "" (Ok tt) (Err EIO).

End Jobs.
Arguments emit_data {A}. Arguments emit_rest {A}. Arguments emit_line {A}. Arguments emit_lines {A}. Arguments emit_stream {A}.
Arguments output_job {A}. Arguments metadata_job {A}.

(** ** Interleaved execution *)

(** How far a task has got: not started; its file is open, it has written [pos]
    characters and has [rest] to write; ended with a result *)
Inductive phase := Waiting | Writing (pos : nat) (rest : string) | Ended (r : res unit).

Definition task : Type := job * phase.

(** [Go i n]: task [i] carries out its next operation, which writes at most
    [n + 1] characters if it is a write.  [Fault i]: this operation of task [i]
    is refused by the operating system (disk full, no permission, ...). *)
Inductive event := Go (i n : nat) | Fault (i : nat).

Definition event_task (e : event) : nat := match e with Go i _ => i | Fault i => i end.

Definition put (t : target) (pos : nat) (s : string) (w : world) : world :=
  match t with Nowhere => w | Screen => w_print s w | ToFile p app => w_put p app pos s w end.

(** one operation of a task; [amount = None] stands for a refused one *)
Definition task_step (j : job) (ph : phase) (amount : option nat) (w : world) : phase * world :=
  match ph with
  | Waiting =>
      match j_target j, amount with
      | Nowhere, _ => (Ended (j_end j), w)
      | Screen, _ => (Writing 0 (j_text j), w)
      | ToFile p _, Some _ => if open_fails w p then (Ended (Err EIO), w) else (Writing 0 (j_text j), w_open p w)
      | ToFile _ _, None => (Ended (Err EIO), w)
      end
  | Writing pos rest =>
      match rest, amount with
      | EmptyString, _ => (Ended (j_end j), w)
      | _, Some n => let s := str_take (S n) rest in (Writing (pos + String.length s) (str_drop (S n) rest), put (j_target j) pos s w)
      | _, None => (Ended (j_fault j), w)
      end
  | Ended r => (Ended r, w)
  end.

Definition event_step (e : event) (ts : list task) (w : world) : list task * world :=
  let '(i, amount) := match e with Go i n => (i, Some n) | Fault i => (i, None) end in
  match nth_error ts i with
  | None => (ts, w)
  | Some (j, ph) => let '(ph, w) := task_step j ph amount w in (upd i (j, ph) ts, w)
  end.

(** Any prefix of the events of an execution is again a list of events, so the
    state after an arbitrary list is the state at an arbitrary crash point. *)
Fixpoint execute (es : list event) (ts : list task) (w : world) : list task * world :=
  match es with
  | [] => (ts, w)
  | e :: es => let '(ts, w) := event_step e ts w in execute es ts w
  end.

Definition tasks (js : list job) : list task := map (fun j => (j, Waiting)) js.

(** [try_for_each] has returned [r]: no task is in the middle of its work.  With
    [Ok] all of them have succeeded; otherwise one of them gave the result, and
    tasks that had not been started are left out.  A panic takes precedence. *)
Definition returned (ts : list task) (r : res unit) : Prop :=
  (forall j pos rest, ~ In (j, Writing pos rest) ts) /\
  match r with
  | Ok _ => forall j ph, In (j, ph) ts -> ph = Ended (Ok tt)
  | Panic => exists j, In (j, Ended Panic) ts
  | r => (exists j, In (j, Ended r) ts) /\ forall j, ~ In (j, Ended Panic) ts
  end.

Section Call.
Variable A : Num.
Variable fmt : nat -> nF A -> string.

(** src/writer/output.rs L213, [self.first_output = false] at the end of a
    successful [write_output] *)
Fixpoint outputs_after (os : list (output A)) (ts : list task) : list (output A) :=
  match os, ts with
  | o :: os, (_, ph) :: ts => (match ph with Ended (Ok _) => o_set_first false o | _ => o end) :: outputs_after os ts
  | os, _ => os
  end.

(** src/writer.rs L101-107, [Writer::write_output]: the tasks *)
Definition write_tasks (wr : writer A) : list task := tasks (map (output_job fmt (wr_counter wr)) (wr_outputs wr)).

(** and the writer after the call has returned [r] *)
Definition writer_after (wr : writer A) (ts : list task) (r : res unit) : writer A :=
  mkWriter (outputs_after (wr_outputs wr) ts) (match r with Ok _ => wr_counter wr + 1 | _ => wr_counter wr end)%N (wr_meta wr) (wr_banner wr).

(** src/writer.rs L110-114, [Writer::write_metadata]: the tasks *)
Definition metadata_tasks (wr : writer A) : list task := tasks (map (metadata_job (wr_meta wr)) (wr_outputs wr)).
End Call.
Arguments outputs_after {A}. Arguments write_tasks {A}. Arguments writer_after {A}. Arguments metadata_tasks {A}.
