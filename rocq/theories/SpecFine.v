(** Specification vocabulary for interrupted and interleaved output.  Nothing
    here is a model of code. *)

From Coq Require Import List ZArith NArith Bool String Ascii.
From Verif Require Import Base Num Config Mesh State NumFlux Time Writer Runner FineWriter SpecWriter SpecRun.
Import ListNotations.
Local Open Scope string_scope.

(** [a] written over the beginning of [s] gives [t]. *)
Definition overwritten (a s t : string) : Prop :=
  (String.length s <= String.length a /\ t = a)%nat \/
  exists c d, s = c ++ d /\ String.length c = String.length a /\ t = a ++ d.

(** The file had contents [old] ([None]: there was none) and now has contents
    [new]: either it has not been touched or a beginning of [full] has been
    written, after the old text if [append] holds and over it otherwise. *)
Definition partly_written (append : Prop) (full : string) (old new : option string) : Prop :=
  new = old \/
  exists a b, full = a ++ b /\
  match old with
  | None => new = Some a
  | Some s => (append -> new = Some (s ++ a)) /\ (~ append -> exists t, new = Some t /\ overwritten a s t)
  end.

(** The output continues its file. *)
Definition continues {A} (o : output A) : Prop := o_conv o = Scalar /\ o_first o = false.

(** At most one output goes to the screen. *)
Definition one_screen {A} (os : list (output A)) : Prop :=
  forall i j oi oj, nth_error os i = Some oi -> nth_error os j = Some oj -> o_stream oi = Stdout -> o_stream oj = Stdout -> i = j.

(** No operation was refused by the operating system. *)
Definition no_fault (es : list event) : Prop := forall i, ~ In (Fault i) es.

(** the number of operations of task [i] *)
Definition turns (i : nat) (es : list event) : nat := List.length (filter (fun e => Nat.eqb (event_task e) i) es).

(** A history of complete outputs whose writes were carried out in parallel. *)
Inductive parallel_history {A} (fmt : nat -> nF A -> string) (m : mesh A) (wr0 : writer A) (w0 : world)
  : list (timestep A * vars A) -> writer A -> world -> Prop :=
| ph_none : parallel_history fmt m wr0 w0 [] wr0 w0
| ph_output : forall l wr w ts v wr1 es tk w2, parallel_history fmt m wr0 w0 l wr w ->
    writer_update m v ts wr = (wr1, Ok tt) ->
    execute es (write_tasks fmt wr1) w = (tk, w2) -> returned tk (Ok tt) ->
    parallel_history fmt m wr0 w0 (l ++ [(ts, v)]) (writer_after wr1 tk (Ok tt)) w2.

(** A simulation whose outputs are written in parallel: it started with [s0],
    [wr0], [w0], and after some steps it holds [s], [wr], [w] and has output
    [tr]. *)
Inductive running {A} {N : numflux_impl A} (fmt : nat -> nF A -> string) (validation : bool) (afuel : nat) (p : phys) (S : nat) (m : mesh A)
    (s0 : sim A N) (wr0 : writer A) (w0 : world) : sim A N -> writer A -> world -> list (timestep A * vars A) -> Prop :=
| rn_start : running fmt validation afuel p S m s0 wr0 w0 s0 wr0 w0 []
| rn_due : forall s wr w tr wr1 es tk w2 s2, running fmt validation afuel p S m s0 wr0 w0 s wr w tr ->
    due s = true -> writer_update m (cent (s_u s)) (s_ts (moved_on s)) wr = (wr1, Ok tt) ->
    execute es (write_tasks fmt wr1) w = (tk, w2) -> returned tk (Ok tt) -> finished s = false ->
    solver_next validation afuel p S m (moved_on s) = (s2, Ok tt) ->
    running fmt validation afuel p S m s0 wr0 w0 s2 (writer_after wr1 tk (Ok tt)) w2 (tr ++ [(s_ts (moved_on s), cent (s_u s))])
| rn_not_due : forall s wr w tr s2, running fmt validation afuel p S m s0 wr0 w0 s wr w tr ->
    due s = false -> finished s = false -> solver_next validation afuel p S m s = (s2, Ok tt) ->
    running fmt validation afuel p S m s0 wr0 w0 s2 wr w tr.
