(** One StandardTimer used by several goroutines (timer.go), as NewTimer makes it: with a
    histogram and a meter nobody else has.

    Simplifications.  The sample is represented by the sequence of durations it was given
    (what it keeps of them is C13-C18); updating and copying it happens inside its mutex
    and is one action.  Of the meter there is the flag and the count; its moving averages
    and published rates are C24-C30, and its tick touches neither flag nor count.
    UpdateSince evaluates time.Since(ts) and does the same as Update; Update stands for
    both, with any duration. *)
From Coq Require Import ZArith List.
From Verif.Model Require Import GoInt Conc.
Import ListNotations.
Open Scope Z_scope.

(** timer.go:142-146 StandardTimer: mutex, histogram's sample (mutex, contents), meter *)
Record tstate := MkT { t_mutex : bool; s_mutex : bool; t_log : list Z; m_cnt : Z; m_stop : bool }.
Definition tstate_init : tstate := MkT false false [] 0 false.

Inductive timer_op := TUpdate (d : Z) | TSnapshot | TCount | TValues | TStop.
Inductive timer_ret := TUnit | TInt (n : Z) | TList (ds : list Z) | TSnap (ds : list Z) (n : Z).

Notation tcode := (code tstate unit timer_ret).
Definition tact (f : tstate -> tstate) (k : tstate -> tcode) : tcode := Atom always f silent k.
Definition lockT (k : tcode) : tcode := Atom (fun s => negb (t_mutex s)) (fun s => MkT true (s_mutex s) (t_log s) (m_cnt s) (m_stop s)) silent (fun _ => k).
Definition unlockT (k : tcode) : tcode := tact (fun s => MkT false (s_mutex s) (t_log s) (m_cnt s) (m_stop s)) (fun _ => k).
Definition lockS (k : tcode) : tcode := Atom (fun s => negb (s_mutex s)) (fun s => MkT (t_mutex s) true (t_log s) (m_cnt s) (m_stop s)) silent (fun _ => k).
Definition unlockS (k : tcode) : tcode := tact (fun s => MkT (t_mutex s) false (t_log s) (m_cnt s) (m_stop s)) (fun _ => k).

(** meter.go:160-171 Mark(1) *)
Definition mark_c (k : tcode) : tcode :=
  tact (fun s => s) (fun s => if m_stop s then k
    else tact (fun s => MkT (t_mutex s) (s_mutex s) (t_log s) (wrap64 (m_cnt s + 1)) (m_stop s)) (fun _ => k)).

Definition timer_body (op : timer_op) : tcode :=
  match op with
  | TUpdate d =>
    (* timer.go:232-237, 240-245; histogram.go:199, sample.go:141-143, 164-186 *)
    lockT (lockS (tact (fun s => MkT (t_mutex s) (s_mutex s) (t_log s ++ [d]) (m_cnt s) (m_stop s)) (fun _ => unlockS (mark_c (unlockT (Ret TUnit))))))
  | TSnapshot =>
    (* timer.go:200-207; histogram.go:188-190, sample.go:116-128; meter.go:194-203 *)
    lockT (lockS (tact (fun s => s) (fun s => unlockS (tact (fun s => s) (fun s' => unlockT (Ret (TSnap (t_log s) (m_cnt s'))))))))
  | TCount =>
    (* timer.go:149-151, sample.go:74-78: no timer mutex *)
    lockS (tact (fun s => s) (fun s => unlockS (Ret (TInt (wrap64 (Z.of_nat (length (t_log s))))))))
  | TValues =>
    (* the statistics: timer.go:154-177 etc., sample.go:131-138: no timer mutex *)
    lockS (tact (fun s => s) (fun s => unlockS (Ret (TList (t_log s)))))
  | TStop =>
    (* timer.go:215-217, meter.go:146-152: the arbiter's part left out *)
    tact (fun s => MkT (t_mutex s) (s_mutex s) (t_log s) (m_cnt s) true) (fun _ => Ret TUnit)
  end.
