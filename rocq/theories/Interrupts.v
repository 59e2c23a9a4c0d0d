(** Registry and codec calls that are cut short: KeyboardInterrupt, MemoryError
    or an exception thrown into the thread stops a call between two of the steps
    of Threads.v.

    No except clause of registry.py or codec.py undoes a step, and the only ones
    that could stop such an exception (registry.py:111, 117, 136, 331: KeyError and
    ValueError; registry.py:467: Exception) make no further access to shared
    state, so what is left behind is the state after the steps that were made.
    The answer of the call is not modelled: an Exception stopped by has_encoder
    (registry.py:465-470) makes it False, all others reach the caller. *)
From Coq Require Import Strings.String.
From Verif Require Import Py Grammar Bytes Encoding Decoding Registry Codec Histories Threads.
Open Scope Z_scope.

(** What is left of a program stopped after [n] steps (a program of fewer steps
    has returned by then). *)
Fixpoint halted {A} (n : nat) (p : prog A) (w : world) {struct n} : world :=
  match n with
  | O => w
  | S n' => match p with Ret _ => w | Step s k => let '(x, w') := s w in halted n' (k x) w' end
  end.
Definition interrupted (n : nat) (o : op) (w : world) : world := halted n (prog_of o) w.

(** A registry with any history of calls, completed or interrupted, and copies. *)
Inductive survivable : world -> Prop :=
| SV_new h : survivable (new_registry, h)
| SV_run o w : survivable w -> survivable (snd (run o w))
| SV_stop n o w : survivable w -> survivable (interrupted n o w)
| SV_copy w : survivable w -> survivable (copy_registry (fst w), snd w).
