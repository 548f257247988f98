(** Reading JSON text (RFC 8259).  Independent of how text is printed. *)
From Coq Require Import ZArith List String Ascii Bool.
Import ListNotations.
Local Open Scope string_scope.

(** a character of a JSON string: a byte of the text, or an escaped UTF-16 code unit *)
Inductive jchar := JByte (c : ascii) | JUnit (n : nat).
(** numbers are kept in the notation of the text *)
Inductive json := JNull | JBool (b : bool) | JNum (text : string) | JStr (s : list jchar) | JArr (l : list json) | JObj (ms : list (list jchar * json)).

Definition between (a b : nat) (c : ascii) : bool := Nat.leb a (nat_of_ascii c) && Nat.leb (nat_of_ascii c) b.
Definition is_dec (c : ascii) : bool := between 48 57 c.
Definition is_space (c : ascii) : bool := existsb (Nat.eqb (nat_of_ascii c)) [32; 9; 10; 13]%nat.
Fixpoint skip (s : string) : string := match s with String c r => if is_space c then skip r else s | "" => "" end.

(** ** numbers *)
Fixpoint skip_digits (s : string) : string := match s with String c r => if is_dec c then skip_digits r else s | "" => "" end.
(** one digit or more *)
Definition some_digits (s : string) : option string := match s with String c r => if is_dec c then Some (skip_digits r) else None | "" => None end.
Definition opt_char (p : ascii -> bool) (s : string) : string := match s with String c r => if p c then r else s | "" => "" end.
Definition is (a c : ascii) : bool := Ascii.eqb a c.
Definition int_part (s : string) : option string :=
  match opt_char (is "-") s with String c r => if is "0" c then Some r else if is_dec c then Some (skip_digits r) else None | "" => None end.
Definition frac_part (s : string) : option string := match s with String c r => if is "." c then some_digits r else Some s | "" => Some s end.
Definition exp_part (s : string) : option string :=
  match s with String c r => if is "e" c || is "E" c then some_digits (opt_char (fun c => is "+" c || is "-" c) r) else Some s | "" => Some s end.
Definition is_number (s : string) : bool :=
  match int_part s with
  | Some r => match frac_part r with Some r' => match exp_part r' with Some "" => true | _ => false end | None => false end
  | None => false
  end.
(** the longest beginning of [s] that consists of characters of numbers *)
Definition num_char (c : ascii) : bool := is_dec c || existsb (fun a => is a c) ["-"; "+"; "."; "e"; "E"]%char.
Fixpoint token (s : string) : string * string :=
  match s with String c r => if num_char c then let '(t, x) := token r in (String c t, x) else ("", s) | "" => ("", "") end.

(** ** strings *)
Definition hex (c : ascii) : option nat :=
  let n := nat_of_ascii c in
  if is_dec c then Some (n - 48)%nat else if between 97 102 c then Some (n - 87)%nat else if between 65 70 c then Some (n - 55)%nat else None.
Definition quotation : ascii := """"%char.
Definition backslash : ascii := "\"%char.
(** what follows a backslash, except u *)
Definition escape (c : ascii) : option ascii :=
  if is quotation c then Some quotation else if is backslash c then Some backslash else if is "/" c then Some "/"%char
  else if is "b" c then Some (ascii_of_nat 8) else if is "f" c then Some (ascii_of_nat 12) else if is "n" c then Some (ascii_of_nat 10)
  else if is "r" c then Some (ascii_of_nat 13) else if is "t" c then Some (ascii_of_nat 9) else None.
Definition cons_char (x : jchar) (o : option (list jchar * string)) : option (list jchar * string) := match o with Some (l, r) => Some (x :: l, r) | None => None end.
(** the rest of a string, up to the quotation mark that ends it *)
Fixpoint str (s : string) : option (list jchar * string) :=
  match s with
  | "" => None
  | String c r =>
    if is quotation c then Some ([], r)
    else if is backslash c then
      match r with
      | "" => None
      | String e r1 =>
        if is "u" e then
          match r1 with
          | String h1 (String h2 (String h3 (String h4 r2))) =>
            match hex h1, hex h2, hex h3, hex h4 with
            | Some a, Some b, Some c, Some d => cons_char (JUnit (((a * 16 + b) * 16 + c) * 16 + d)) (str r2)
            | _, _, _, _ => None
            end
          | _ => None
          end
        else match escape e with Some x => cons_char (JByte x) (str r1) | None => None end
      end
    else if Nat.ltb (nat_of_ascii c) 32 then None
    else cons_char (JByte c) (str r)
  end.

(** ** values *)
Fixpoint literal (p s : string) : option string :=
  match p, s with
  | "", _ => Some s
  | String a p', String b s' => if is a b then literal p' s' else None
  | _, "" => None
  end.
Definition atom (s : string) : option (json * string) :=
  match literal "null" s with
  | Some r => Some (JNull, r)
  | None => match literal "true" s with
    | Some r => Some (JBool true, r)
    | None => match literal "false" s with
      | Some r => Some (JBool false, r)
      | None => let '(t, r) := token s in if is_number t then Some (JNum t, r) else None
      end
    end
  end.
(** a value at the beginning of [s], and what follows it; [members] and [elements] begin with
    a member or element *)
Fixpoint value (fuel : nat) (s : string) : option (json * string) :=
  match fuel with
  | O => None
  | S f =>
    match skip s with
    | "" => None
    | String c r =>
      if is "{" c then
        match skip r with
        | String d r1 => if is "}" d then Some (JObj [], r1) else match members f r with Some (ms, r2) => Some (JObj ms, r2) | None => None end
        | "" => None
        end
      else if is "[" c then
        match skip r with
        | String d r1 => if is "]" d then Some (JArr [], r1) else match elements f r with Some (vs, r2) => Some (JArr vs, r2) | None => None end
        | "" => None
        end
      else if is quotation c then match str r with Some (l, r1) => Some (JStr l, r1) | None => None end
      else atom (String c r)
    end
  end
with members (fuel : nat) (s : string) : option (list (list jchar * json) * string) :=
  match fuel with
  | O => None
  | S f =>
    match skip s with
    | "" => None
    | String c r =>
      if is quotation c then
        match str r with
        | None => None
        | Some (k, r1) =>
          match skip r1 with
          | "" => None
          | String d r2 =>
            if is ":" d then
              match value f r2 with
              | None => None
              | Some (v, r3) =>
                match skip r3 with
                | "" => None
                | String e r4 =>
                  if is "," e then match members f r4 with Some (ms, r5) => Some ((k, v) :: ms, r5) | None => None end
                  else if is "}" e then Some ([(k, v)], r4) else None
                end
              end
            else None
          end
        end
      else None
    end
  end
with elements (fuel : nat) (s : string) : option (list json * string) :=
  match fuel with
  | O => None
  | S f =>
    match value f s with
    | None => None
    | Some (v, r) =>
      match skip r with
      | "" => None
      | String e r1 => if is "," e then match elements f r1 with Some (vs, r2) => Some (v :: vs, r2) | None => None end else if is "]" e then Some ([v], r1) else None
      end
    end
  end.
(** [s] is the JSON text of [j] *)
Definition is_json (s : string) (j : json) : Prop := exists fuel r, value fuel s = Some (j, r) /\ skip r = "".
Definition bytes (s : string) : list jchar := map JByte (list_ascii_of_string s).

(** an example *)
Definition dq : string := String quotation "".
Example is_json_example : is_json (" {" ++ dq ++ "a\n" ++ dq ++ " : [1, -2.5e+3,true,null ]," ++ dq ++ "b" ++ dq ++ ":{}} ")
  (JObj [([JByte "a"%char; JByte (ascii_of_nat 10)], JArr [JNum "1"; JNum "-2.5e+3"; JBool true; JNull]); ([JByte "b"%char], JObj [])]).
Proof. exists 10%nat, " ". split; reflexivity. Qed.
Example is_number_example : map is_number ["0"; "-0"; "1e+21"; "1.5e-07"; "01"; "1."; ".5"; "+1"; "-"; "1e"; "NaN"; ""] = [true; true; true; true; false; false; false; false; false; false; false; false].
Proof. reflexivity. Qed.
