(** What JSON exports should say. *)
From Coq Require Import ZArith List String Bool.
From Verif.Model Require Import GoInt GoFloat GoBase World.
From Verif.Spec Require Import ApiSpec RegistrySpec GetAllSpec TextSpec ReportSpec WriteSpec JsonText.
Import ListNotations.
Local Open Scope string_scope.

Section Json.
Variable quote : string -> string.
Variable number : f64 -> string.
Variable error_text : Z -> string.
(** the text of the object with these members *)
Definition object_text (ms : list (string * string)) : string :=
  "{" ++ String.concat "," (map (fun kt => quote (fst kt) ++ ":" ++ snd kt) ms) ++ "}".
(** the value [a] can be written in JSON, as [t] *)
Definition value_text (a : rv) (t : string) : Prop :=
  match a with
  | RZ n => parse_int t = Some n /\ is_number t = true
  | RF x => fis_finite x = true /\ t = number x
  | RErr None => t = "null"
  | RErr (Some e) => t = quote (error_says error_text (Some e))
  | _ => False
  end.
(** what [answer] is for the calls in the table [accessors]; health checks are run first *)
Definition reported (mexp : f64 -> f64) (st : state) (b : nat) (o : orc) (i : val) (x : nat) (c : op) (a : rv) : Prop :=
  if class_eqb (cls i) CHealth then exists e, a = RErr e /\ says_error mexp st (VReg b) o i x e
  else answer mexp st o standard x c = Some (Ok a).
(** the text of the metric [i], which the program holds at [x] *)
Definition metric_text (mexp : f64 -> f64) (st : state) (b : nat) (o : orc) (i : val) (x : nat) (t : string) : Prop :=
  exists ms, t = object_text ms /\ ascending (map fst ms) /\ (forall k, In k (map fst ms) <-> In k (map fst (accessors (cls i) x))) /\
    forall k s, In (k, s) ms -> exists c a, In (k, c) (accessors (cls i) x) /\ reported mexp st b o i x c a /\ value_text a s.
(** an accessor whose value GetAll reports answers NaN or an infinity *)
Definition unexportable (mexp : f64 -> f64) (st : state) (b : nat) (o : orc) (at_ : string -> nat) : Prop :=
  exists nm i k c y, registered (fst st) b nm = Some i /\ In (k, c) (accessors (cls i) (at_ nm)) /\
    answer mexp st o standard (at_ nm) c = Some (Ok (RF y)) /\ fis_finite y = false.
End Json.
