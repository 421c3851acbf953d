(* Specification for C114: time stamps (nanoseconds since 1900-01-01 00:00:00) in result files. *)
From Coq Require Import ZArith List.
From Flocq Require Import IEEE754.BinarySingleNaN.
From Verif Require Import FloatProps TimeNumModel TimeNumProofs.
Import ListNotations.
Open Scope Z_scope.

Definition ns_day : Z := 86400 * 1000000000.
(* doubles in the file, 80-bit extended numbers while reading *)
Definition stored_numbers (times : list Z) : list (binary_float 53 1024) := written 53 1024 p53 e1024 times.
Definition times_read (nums : list (binary_float 53 1024)) : list Z := read_back 53 1024 64 16384 x64 x16384 nums.

(* from 1720-07-28 until the end of 2079-06-06: less than 2^16 days before or after the reference date *)
Definition usual (t : Z) : Prop := Z.abs t < 65536 * ns_day.
(* from 1615 until 2185: less than 2^53 - 2^24 microseconds *)
Definition far (t : Z) : Prop := Z.abs t <= 1000 * (2 ^ 53 - 2 ^ 24) - 1000.
Definition whole_microsecond (t : Z) : Prop := exists k, t = k * 1000.
Definition half_hour (t : Z) : Prop := exists k, t = k * (1800 * 1000000000).
(* r is t without the digits after the microseconds *)
Definition cut (t r : Z) : Prop := whole_microsecond r /\ r <= t < r + 1000.
