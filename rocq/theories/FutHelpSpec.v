(** * What a test program says about a command line that it refuses. *)
From Coq Require Import String Ascii Bool List.
From Verif Require Import FutModel FutSpec.
Import ListNotations.
Local Open Scope string_scope.
Local Open Scope list_scope.

Definition tabulator : string := String "009" "".
Definition new_line : string := String "010" "".

(** One option of the help: its form and its meaning. *)
Definition help_lines : list (string * string) :=
  [("-c", "Do not capture stdout/stderr"); ("-e", "Fail tests on STDERR output"); ("-i", "Set an explicit ID for the unit test");
   ("-h", "This help"); ("-n", "Set an explicit name for the UnitTest"); ("-q", "Run quietly (suppress all output)");
   ("-t NAME", "Run given test (may be used multiple times)"); ("-v N", "Sets verbosity level to N (0=silent, 5=all)");
   ("-x FILE", "Save XML report to this file")].

Definition help : string :=
  ("UnitTest command line options:" ++ new_line ++ new_line
  ++ String.concat "" (map (fun x => tabulator ++ fst x ++ tabulator ++ snd x ++ new_line)%string help_lines) ++ new_line)%string.

(** For the part of the command line that begins with the culprit: the help if it was asked for,
    the name of a test that does not exist, and "Invalid options" and the help in all other cases. *)
Definition explanation (bad : list string) : list chunk :=
  match bad with
  | o :: l =>
      if String.eqb o "-h" then [mkChunk Out Framework help]
      else match l with
           | n :: _ => if String.eqb o "-t" then [mkChunk Out Framework ("Unknown test case " ++ n ++ new_line)%string]
                       else [mkChunk Err Framework ("Invalid options" ++ new_line)%string; mkChunk Out Framework help]
           | [] => [mkChunk Err Framework ("Invalid options" ++ new_line)%string; mkChunk Out Framework help]
           end
  | [] => []
  end.

(** The help has a line that begins with the option [o]. *)
Definition in_help (o : string) : Prop := exists before rest, help = (before ++ new_line ++ tabulator ++ o ++ rest)%string.
