(** librato/client.go: PostMetrics; librato/librato.go: Run.

    Simplifications.  What the HTTP client answers to a request is an input (a function of the
    request); http.NewRequest does not fail (the method and the URL are constants).  Of a request
    the method, the URL, the two headers that are set and the body are represented, of a response
    the status and what reading the body gives.  As in Json.v the notation of strings and of finite
    floats in JSON, and the text of encoding/json's error, are parameters.  A tick of the ticker is
    an input, together with what the program has done since the tick before; a report is not
    interleaved with the program. *)
From Coq Require Import ZArith List String Bool.
From Verif.Model Require Import GoInt GoFloat GoBase World Fmt Report Json Librato.
Import ListNotations.
Open Scope string_scope.

(** the errors returned by Client.Do and by ioutil.ReadAll are represented by their text *)
Record http_request := MkHttp { h_method : string; h_url : string; h_content_type : string; h_user : string; h_password : string; h_body : string }.
Inductive http_body := Body (s : string) | BodyError (e : string).
Inductive http_answer := NoAnswer (e : string) | Answer (code : Z) (status : string) (b : http_body).
(** what is done with the network: a request, reading a response's body to its end, closing it *)
Inductive action := Do (r : http_request) | ReadAll | CloseBody.
Definition metrics_post_url : string := "https://metrics-api.librato.com/v1/metrics".

Section Post.
Variables (quote : string -> string) (number : f64 -> string) (unsupported : string).

(** encoding/json on a Measurement, client.go:58 *)
Definition lval_json (v : lval) : option string :=
  match v with
  | LF x => if fis_finite x then Some (number x) else None
  | LU n | LI n => Some (fmt_d n)
  | LS s => Some (quote s)
  | LA a => object quote (map (fun kv => (fst kv, Some (quote (snd kv)))) a)
  end.
Definition measurement_json (m : measurement) : option string := object quote (map (fun kv => (fst kv, lval_json (snd kv))) m).
Fixpoint encoded (l : list (option string)) : option (list string) :=
  match l with
  | [] => Some []
  | Some t :: r => match encoded r with Some ts => Some (t :: ts) | None => None end
  | None :: _ => None
  end.
Definition array (l : list (option string)) : option string := match encoded l with Some ts => Some ("[" ++ String.concat "," ts ++ "]") | None => None end.
(** on a Batch, client.go:61-66: the fields in order; [gauges] and [counters] are omitted when empty *)
Definition omitempty (k : string) (l : list measurement) : list (string * option string) :=
  match l with [] => [] | _ => [(k, array (map measurement_json l))] end.
Definition batch_json (b : batch) : option string :=
  match members quote (omitempty "gauges" (b_gauges b) ++ omitempty "counters" (b_counters b) ++ [("measure_time", Some (fmt_d (b_time b))); ("source", Some (quote (b_source b)))])%list with
  | Some ms => Some ("{" ++ String.concat "," ms ++ "}")
  | None => None
  end.

Section Client.
(** LibratoClient, client.go:14-16 *)
Variables (email token : string).
(** client.go:68-102: what is done, and the error *)
Definition post_metrics (http : http_request -> http_answer) (b : batch) : list action * option string :=
  match b_counters b, b_gauges b with
  | [], [] => ([], None)
  | _, _ =>
    match batch_json b with
    | None => ([], Some unsupported)
    | Some js =>
      let req := MkHttp "POST" metrics_post_url "application/json" email token js in
      match http req with
      | NoAnswer e => ([Do req], Some e)
      | Answer code status body =>
        if Z.eqb code 200 then ([Do req], None)
        else
          let text := match body with Body s => s | BodyError e => "(could not fetch response body for error: " ++ e ++ ")" end in
          ([Do req; ReadAll], Some ("Unable to post to Librato: " ++ fmt_d code ++ " " ++ status ++ " " ++ text))
      end
    end
  end.

(** a tick: what the program did before it, the time, and the world the report runs in *)
Record tick := MkTick { t_calls : list (op * orc); t_now : Z; t_orc : orc; t_http : http_request -> http_answer }.
Variable mexp : f64 -> f64.
Variable sq : f64 -> f64.
Variable self : reporter.
Variable v : val.
(** librato.go:47-58: one turn of the loop: what is done, what is logged; [Panic] ends the process *)
Definition turn (st : state) (tk : tick) : state * res (list action * list string) :=
  let st1 := run mexp st (t_calls tk) in
  match build_request sq self (t_now tk) v (t_orc tk) (fst st1) with
  | (w', Ok b) =>
    let '(acts, err) := post_metrics (t_http tk) b in
    ((w', snd st1), Ok (acts, match err with Some e => ["ERROR sending metrics to librato " ++ e] | None => [] end))
  | (w', Panic m) => ((w', snd st1), Panic m)
  end.
Fixpoint turns (st : state) (ticks : list tick) : list (list action * list string) * option string :=
  match ticks with
  | [] => ([], None)
  | tk :: rest =>
    match turn st tk with
    | (st', Ok a) => let '(l, e) := turns st' rest in (a :: l, e)
    | (_, Panic m) => ([], Some m)
    end
  end.
(** librato.go:43-59, without the warning that is logged first.  time.Tick returns nil if the interval is not positive, and nothing is
    received from a nil channel. *)
Definition run_reporter (st : state) (ticks : list tick) : list (list action * list string) * option string :=
  if Z.leb (interval self) 0 then ([], None) else turns st ticks.
(** the state after ticks *)
Fixpoint after_ticks (st : state) (ticks : list tick) : state := match ticks with [] => st | tk :: rest => after_ticks (fst (turn st tk)) rest end.
End Client.
End Post.
