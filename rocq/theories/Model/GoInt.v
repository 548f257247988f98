(** Go's fixed-width integers, as [Z] with explicit wrap-around.

    Models the Go language rule that int64/uint64/uint32 arithmetic is modulo
    2^64 resp. 2^32 (two's complement), which every file of /repo relies on
    (e.g. counter.go:100-107, sample.go:375-381, runtime.go:91-112). *)
From Coq Require Import ZArith.
Open Scope Z_scope.

(** [int64] conversion of a mathematical integer (two's complement). *)
Definition wrap64 (z : Z) : Z := (z + 2 ^ 63) mod 2 ^ 64 - 2 ^ 63.

(** [uint64] conversion. *)
Definition wrapu64 (z : Z) : Z := z mod 2 ^ 64.

(** [uint32] conversion. *)
Definition wrapu32 (z : Z) : Z := z mod 2 ^ 32.

Definition min_int64 : Z := - 2 ^ 63.      (* math.MinInt64 *)
Definition max_int64 : Z := 2 ^ 63 - 1.    (* math.MaxInt64 *)

(** The values an int64 variable can hold. *)
Definition is_int64 (z : Z) : Prop := min_int64 <= z <= max_int64.
Definition is_uint64 (z : Z) : Prop := 0 <= z < 2 ^ 64.
Definition is_uint32 (z : Z) : Prop := 0 <= z < 2 ^ 32.
