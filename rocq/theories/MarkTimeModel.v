(** * Model of the time functions of the test framework
    (src/fut/marktime-unix.c++, src/fut/marktime-win.c++, src/include/falcon/fut/timelapse.h). *)

From Coq Require Import ZArith Bool.
From Verif Require Import Base FutModel.
Open Scope Z_scope.

(** Signed overflow is undefined: [z] computed in a signed type of [bits] bits. *)
Definition sint (bits z : Z) : res unit Z :=
  if (- 2 ^ (bits - 1) <=? z) && (z <? 2 ^ (bits - 1)) then ROk tt z else RBad UB.

Definition andthen (a : res unit Z) (f : Z -> res unit Z) : res unit Z :=
  match a with ROk _ z => f z | RThrow s => RThrow s | RBad b => RBad b end.

(** marktime-unix.c++ L24-32.  [tv]: what gettimeofday stores, [None] if it fails; [long]: bits of
    time_t (and of long).  tv_sec * 1000 is computed in time_t, the sum in int64. *)
Definition mark_unix (long : Z) (tv : option (Z * Z)) : res unit Z :=
  match tv with
  | None => RThrow tt
  | Some (sec, usec) => andthen (sint long (sec * 1000)) (fun ms => sint 64 (ms + usec / 1000))
  end.

(** marktime-win.c++ L22-30; the fields are 16-bit and the sum is computed in int (32 bits). *)
Definition mark_win (hour minute second ms : Z) : res unit Z :=
  andthen (sint 32 (hour * 3600)) (fun _ => andthen (sint 32 (hour * 3600 * 1000)) (fun h =>
  andthen (sint 32 (minute * 60 * 1000)) (fun m => andthen (sint 32 (second * 1000)) (fun s =>
  andthen (sint 32 (h + m)) (fun hm => andthen (sint 32 (hm + s)) (fun hms => sint 32 (hms + ms))))))).

(** marktime-unix.c++ L34-36: the argument of usleep, a useconds_t (32 bits, unsigned). *)
Definition wait_unix (mseconds : Z) : res unit Z := andthen (sint 64 (mseconds * 1000)) (fun us => ROk tt (us mod 2 ^ 32)).

(** marktime-win.c++ L32-34: the argument of Sleep, a DWORD. *)
Definition wait_win (millsecs : Z) : res unit Z := ROk tt (millsecs mod 2 ^ 32).

(** timelapse.h L36-40, L48-54 is [FutModel.elapsed]. *)
