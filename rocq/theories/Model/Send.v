(** How reports reach their destination: package bufio's Writer (Go's bufio/bufio.go) over a
    connection that may fail, in graphite.go:57-113 and opentsdb.go:60-119, and the plain
    io.Writer of writer.go.

    Simplifications.  An error is a boolean (nothing looks at which error it is).  The
    connection is that of a TCPConn: Write writes everything or fails after some bytes.
    Nothing else runs in the meantime. *)
From Coq Require Import ZArith List String Ascii Bool Arith.
From Verif.Model Require Import GoInt GoFloat GoBase World Fmt Report.
Import ListNotations.
Local Open Scope string_scope.
Local Open Scope nat_scope.

(** p[:n] and p[n:] *)
Fixpoint take (n : nat) (s : string) : string :=
  match n, s with S k, String c r => String c (take k r) | _, _ => "" end.
Fixpoint drop (n : nat) (s : string) : string :=
  match n, s with S k, String _ r => drop k r | _, _ => s end.

(** ** The connection *)
(** what the next calls of Write do: [None] writes everything, [Some n] writes at most n bytes
    and fails; when the list is used up, everything is written *)
Definition fate := list (option nat).
Record conn := MkConn { c_accepted : string; c_calls : list (string * bool); c_fate : fate }.
(** conn.Write(p): the bytes accepted, and whether it failed *)
Definition conn_write (c : conn) (p : string) : conn * nat * bool :=
  match c_fate c with
  | Some k :: f => let n := Nat.min k (String.length p) in (MkConn (c_accepted c ++ take n p) (c_calls c ++ [(p, true)]) f, n, true)
  | f => (MkConn (c_accepted c ++ p) (c_calls c ++ [(p, false)]) (List.tl f), String.length p, false)
  end.

(** ** bufio.Writer *)
Record bufw := MkBufw { b_buf : string; b_err : bool; b_conn : conn }.
(** NewWriter: 4096 bytes *)
Definition buf_size : nat := 4096.
Definition new_writer (c : conn) : bufw := MkBufw "" false c.
Definition available (b : bufw) : nat := buf_size - String.length (b_buf b).
(** Flush *)
Definition flush (b : bufw) : bufw :=
  if b_err b then b
  else if String.length (b_buf b) =? 0 then b
  else
    let '(c, n, failed) := conn_write (b_conn b) (b_buf b) in
    if failed || (n <? String.length (b_buf b)) then MkBufw (drop n (b_buf b)) true c
    else MkBufw "" false c.
(** the loop of Write: while there is more than fits and no error.  It is entered at most
    three times (the buffer is filled up, then the rest is written directly), see
    [write_loop_done]. *)
Fixpoint write_loop (fuel : nat) (p : string) (b : bufw) : string * bufw :=
  match fuel with
  | 0 => (p, b)
  | S k =>
    if (available b <? String.length p) && negb (b_err b) then
      if String.length (b_buf b) =? 0 then
        let '(c, n, failed) := conn_write (b_conn b) p in write_loop k (drop n p) (MkBufw (b_buf b) failed c)
      else
        let n := Nat.min (available b) (String.length p) in
        write_loop k (drop n p) (flush (MkBufw (b_buf b ++ take n p) (b_err b) (b_conn b)))
    else (p, b)
  end.
Definition write (b : bufw) (p : string) : bufw :=
  let '(p', b') := write_loop 3 p b in
  if b_err b' then b' else MkBufw (b_buf b' ++ p') false (b_conn b').

(** ** graphite.go and opentsdb.go *)
(** what is printed for one metric until the code panics or reaches the end: dividing by
    int64(du) comes after the count *)
Definition before_division {A} (d : reading) (r : res (list A)) (first : A) : list A * res unit :=
  match r with
  | Ok l => (l, Ok tt)
  | Panic m => (match d with RdTimer _ _ _ _ _ _ _ _ _ _ => [first] | _ => [] end, Panic m)
  end.
(** the number of a reading that is its count *)
Definition count_of (d : reading) : Z := match d with RdCounter n | RdHist n _ _ _ _ _ | RdMeter n _ _ _ _ | RdTimer n _ _ _ _ _ _ _ _ _ => n | _ => 0%Z end.
(** the callback on one metric after another: Fprintf for every line, then Flush *)
Fixpoint send_each (ps : list f64) (render : string -> reading -> list string * res unit) (es : list (string * val)) (o : orc) (w : world) (b : bufw) : world * bufw * res unit :=
  match es with
  | [] => (w, b, Ok tt)
  | (name, v) :: r =>
    match read_metric false ps v o w with
    | (w1, Panic m) => (w1, b, Panic m)
    | (w1, Ok None) => send_each ps render r o w1 (flush b)
    | (w1, Ok (Some d)) =>
      let '(ls, e) := render name d in
      let b1 := fold_left write ls b in
      match e with Ok _ => send_each ps render r o w1 (flush b1) | Panic m => (w1, b1, Panic m) end
    end
  end.
(** the result: the connection after it, the metrics, and the error returned *)
Record sent := MkSent { s_world : world; s_conn : conn; s_err : res bool }.
(** [dial] says whether net.DialTCP succeeds *)
Definition send (ps : list f64) (render : string -> reading -> list string * res unit) (r : val) (dial : bool) (f : fate) (o : orc) (w : world) : sent :=
  let c := MkConn "" [] f in
  if negb dial then MkSent w c (Ok true)
  else
    match reg_each r o w with
    | (w1, Panic m) => MkSent w1 c (Panic m)
    | (w1, Ok es) =>
      let '(w2, b, e) := send_each ps render es o w1 (new_writer c) in
      MkSent w2 (b_conn b) (match e with Ok _ => Ok false | Panic m => Panic m end)
    end.
Definition graphite_once (format_float : f64 -> string) (prefix : string) (unit_ : Z) (ps : list f64) (r : val) (dial : bool) (f : fate) (o : orc) (w : world) : sent :=
  let now := unix (o_now o) in
  let line := fun name => graphite_line prefix name now in
  send ps (fun name d => let '(fs, e) := before_division d (graphite_fields format_float unit_ ps d) ("count", NInt (count_of d)) in (map (line name) fs, e)) r dial f o w.
Definition opentsdb_once (host prefix : string) (unit_ : Z) (r : val) (dial : bool) (f : fate) (o : orc) (w : world) : sent :=
  let now := unix (o_now o) in
  let line := fun name => opentsdb_line prefix name (short_hostname host) now in
  send ps5 (fun name d => let '(fs, e) := before_division d (opentsdb_fields unit_ d) ("count", NInt (count_of d)) in (map (line name) fs, e)) r dial f o w.

(** ** writer.go: every Fprintf is one call of Write, whatever the last one did *)
Definition print (c : conn) (p : string) : conn := fst (fst (conn_write c p)).
Fixpoint print_each (error_text : Z -> string) (es : list (string * val)) (o : orc) (w : world) (c : conn) : world * conn * res unit :=
  match es with
  | [] => (w, c, Ok tt)
  | (name, v) :: r =>
    match read_metric true ps5 v o w with
    | (w1, Panic m) => (w1, c, Panic m)
    | (w1, Ok None) => print_each error_text r o w1 c
    | (w1, Ok (Some d)) =>
      match write_lines error_text name d with
      | Ok ls => print_each error_text r o w1 (fold_left print ls c)
      | Panic m => (w1, c, Panic m)
      end
    end
  end.
(** WriteOnce returns nothing *)
Definition write_to (error_text : Z -> string) (sort : list (string * val) -> list (string * val)) (r : val) (f : fate) (o : orc) (w : world) : sent :=
  let c := MkConn "" [] f in
  match reg_each r o w with
  | (w1, Panic m) => MkSent w1 c (Panic m)
  | (w1, Ok es) =>
    let '(w2, c', e) := print_each error_text (sort es) o w1 c in
    MkSent w2 c' (match e with Ok _ => Ok false | Panic m => Panic m end)
  end.
