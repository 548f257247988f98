(** StandardEWMA (ewma.go:75-138): methods as sequences of atomic actions.

    The code is written over any shared state that contains the EWMA (accessors
    [get]/[set]), so that the same definitions serve the EWMA alone and the
    three EWMAs inside a meter.  [em] embeds the observations. *)
From Coq Require Import ZArith List.
From Verif.Model Require Import GoInt GoFloat Conc.
Import ListNotations.
Open Scope Z_scope.

(** ewma.go:79-85 *)
Record ewma := MkEwma {
  w_uncounted : Z;        (* int64 *)
  w_alpha : f64;
  w_rate : Z;             (* uint64: bits of a float64 *)
  w_init : bool;          (* uint32, 0 or 1 *)
  w_mutex : bool          (* locked? *)
}.

(** ewma.go:19-24 NewEWMA *)
Definition NewEWMA (alpha : f64) : ewma := MkEwma 0 alpha 0 false false.

(** ewma.go:27-39 NewEWMA1/5/15: 1 - math.Exp(-5.0/60.0/minutes).  The argument
    is a constant expression, so it is -1/(12*minutes) rounded once. *)
Definition ewma_alpha (mexp : f64 -> f64) (minutes : Z) : f64 :=
  fsub (f_of_int 1) (mexp (fdiv (f_of_int (-1)) (f_of_int (12 * minutes)))).

(** observations *)
Inductive elabel :=
| EFed (n : Z)          (* Update added n *)
| ELoaded (n : Z)       (* fetchInstantRate loaded n *)
| ETaken (n : Z)        (* fetchInstantRate subtracted n *)
| EAcquired | EReleased (* the mutex *)
| EInitSet              (* init set to 1 *)
| ERateInit (b : Z)     (* rate stored by the initialising branch *)
| ERateUpd (b : Z).     (* rate stored by updateRate *)

Section Code.
Context {S L A : Type}.
Variable get : S -> ewma.
Variable set : S -> ewma -> S.
Variable em : elabel -> list L.

Definition set_uncounted (n : Z) (w : ewma) := MkEwma n (w_alpha w) (w_rate w) (w_init w) (w_mutex w).
Definition set_rate (b : Z) (w : ewma) := MkEwma (w_uncounted w) (w_alpha w) b (w_init w) (w_mutex w).
Definition set_init (w : ewma) := MkEwma (w_uncounted w) (w_alpha w) (w_rate w) true (w_mutex w).
Definition set_mutex (b : bool) (w : ewma) := MkEwma (w_uncounted w) (w_alpha w) (w_rate w) (w_init w) b.

(** an atomic action on the EWMA *)
Definition eact (u : ewma -> ewma) (l : ewma -> list elabel) (k : ewma -> code S L A) : code S L A :=
  Atom always (fun s => set s (u (get s))) (fun s => flat_map em (l (get s))) (fun s => k (get s)).
Definition eload (k : ewma -> code S L A) : code S L A :=
  Atom always (fun s => s) silent (fun s => k (get s)).

(** ewma.go:136-138 Update *)
Definition ewma_update_c (n : Z) (k : code S L A) : code S L A :=
  eact (fun w => set_uncounted (wrap64 (w_uncounted w + n)) w) (fun _ => [EFed n]) (fun _ => k).

(** ewma.go:125 float64(count) / float64(5e9) *)
Definition instant_rate (count : Z) : f64 := fdiv (f_of_int count) (f_of_int 5000000000).

(** ewma.go:122-127 fetchInstantRate: load, then add the negative *)
Definition fetch_c (k : f64 -> code S L A) : code S L A :=
  Atom always (fun s => s) (fun s => em (ELoaded (w_uncounted (get s)))) (fun s =>
    let count := w_uncounted (get s) in
    eact (fun w => set_uncounted (wrap64 (w_uncounted w + wrap64 (- count))) w) (fun _ => [ETaken count])
      (fun _ => k (instant_rate count))).

(** ewma.go:131 currentRate += a.alpha * (instantRate - currentRate) *)
Definition recur (alpha cur ir : f64) : f64 := fadd cur (fmul alpha (fsub ir cur)).

(** ewma.go:129-133 updateRate *)
Definition update_rate_c (ir : f64) (k : code S L A) : code S L A :=
  eload (fun w =>
    let b := float64bits (recur (w_alpha w) (float64frombits (w_rate w)) ir) in
    eact (fun w' => set_rate b w') (fun _ => [ERateUpd b]) (fun _ => k)).

(** sync.Mutex: Lock waits *)
Definition elock (k : code S L A) : code S L A :=
  Atom (fun s => negb (w_mutex (get s))) (fun s => set s (set_mutex true (get s))) (fun _ => em EAcquired) (fun _ => k).
Definition eunlock (k : code S L A) : code S L A :=
  eact (set_mutex false) (fun _ => [EReleased]) (fun _ => k).

(** ewma.go:100-120 Tick *)
Definition tick_c (k : code S L A) : code S L A :=
  eload (fun w =>
    if w_init w then fetch_c (fun ir => update_rate_c ir k)
    else
      elock (eload (fun w' =>
        if w_init w' then fetch_c (fun ir => update_rate_c ir (eunlock k))
        else
          eact set_init (fun _ => [EInitSet]) (fun _ =>
          fetch_c (fun ir =>
            let b := float64bits ir in
            eact (set_rate b) (fun _ => [ERateInit b]) (fun _ => eunlock k)))))).

(** ewma.go:88-91 Rate *)
Definition rate_of (b : Z) : f64 := fmul (float64frombits b) (f_of_int 1000000000).
Definition rate_c (k : f64 -> code S L A) : code S L A :=
  eload (fun w => k (rate_of (w_rate w))).
End Code.

(** the EWMA on its own; Snapshot (ewma.go:94-96) reads Rate *)
Inductive ewma_op := WUpdate (n : Z) | WTick | WRate | WSnapshot.
Inductive ewma_ret := WNone | WVal (v : f64) | WSnap (v : f64).

Definition ewma_body (op : ewma_op) : code ewma elabel ewma_ret :=
  let get := fun w : ewma => w in let set := fun (_ w : ewma) => w in let em := fun l => [l] in
  match op with
  | WUpdate n => ewma_update_c get set em n (Ret WNone)
  | WTick => tick_c get set em (Ret WNone)
  | WRate => rate_c get (fun v => Ret (WVal v))
  | WSnapshot => rate_c get (fun v => Ret (WSnap v))
  end.

(** running a method without interference; [None] if it blocks *)
Fixpoint cseq {S L A} (c : code S L A) (s : S) : option (S * A) :=
  match c with
  | Ret a => Some (s, a)
  | Atom e u l k => if e s then cseq (k s) (u s) else None
  end.

(** one call by a single user *)
Definition ewma_seq (w : ewma) (op : ewma_op) : ewma :=
  match cseq (ewma_body op) w with Some (w', _) => w' | None => w end.
Definition ewma_run (w : ewma) (h : list ewma_op) : ewma := fold_left ewma_seq h w.
