(** * Time, in microseconds since 1970. *)
From Coq Require Import ZArith.
Local Open Scope Z_scope.

(** What gettimeofday reports at time [t]. *)
Definition timeval (t : Z) : Z * Z := (t / 1000000, t mod 1000000).

(** The fields of GetSystemTime at time [t]. *)
Definition hour_of (t : Z) : Z := t / 3600000000 mod 24.
Definition minute_of (t : Z) : Z := t / 60000000 mod 60.
Definition second_of (t : Z) : Z := t / 1000000 mod 60.
Definition millisecond_of (t : Z) : Z := t / 1000 mod 1000.

(** A day in microseconds. *)
Definition day : Z := 86400000000.

(** [e] milliseconds is what a clock of milliseconds can tell of [d] microseconds. *)
Definition measures (e d : Z) : Prop := Z.abs (1000 * e - d) < 1000.

(** Until the year 200000. *)
Definition within (t : Z) : Prop := 0 <= t < 6250000000000 * 1000000.
