(** Structs guarded by a sync.Mutex: a method takes the mutex, reads and writes the fields one
    after the other, and releases the mutex when it returns or panics (defer Unlock).  The
    mutex does not stop a goroutine from touching the fields: that no two do so at a time is
    a theorem. *)
From Coq Require Import List Bool.
From Verif.Model Require Import Conc.
Import ListNotations.

(** the struct: whether the mutex is locked, and the fields *)
Record guarded (D : Type) := MkGuarded { g_locked : bool; g_data : D }.
Arguments MkGuarded {D}.
Arguments g_locked {D}.
Arguments g_data {D}.

(** code on the fields, with each of its actions marked (label [tt]) as an access to them *)
Fixpoint inside {D L A R} (c : code D L A) (k : A -> code (guarded D) unit R) : code (guarded D) unit R :=
  match c with
  | Ret a => k a
  | Atom e u l k' =>
    Atom (fun g => e (g_data g)) (fun g => MkGuarded (g_locked g) (u (g_data g))) (fun _ => [tt]) (fun g => inside (k' (g_data g)) k)
  end.
(** s.mutex.Lock() *)
Definition lock {D R} (k : code (guarded D) unit R) : code (guarded D) unit R :=
  Atom (fun g => negb (g_locked g)) (fun g => MkGuarded true (g_data g)) silent (fun _ => k).
(** s.mutex.Unlock() *)
Definition unlock {D R} (k : code (guarded D) unit R) : code (guarded D) unit R :=
  Atom always (fun g => MkGuarded false (g_data g)) silent (fun _ => k).
(** s.mutex.Lock(); defer s.mutex.Unlock(); [c]; then [after] without the mutex *)
Definition critical {D L A R} (c : code D L A) (after : A -> R) : code (guarded D) unit R :=
  lock (inside c (fun a => unlock (Ret (after a)))).
