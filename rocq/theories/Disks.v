(** Concrete disks and sessions, for examples and counterexamples. *)
From Verif Require Import Base Utf8 Grapheme UnicodeTable Position GapBuffer PathModel Buffer
  BufferCalls Witness.

(** Disks: empty, and with one file that also has a second name.  Every name is
    its own target, but for the link [the_link] to [the_path]. *)
Definition the_path : path := [RootDir; Normal [97%N]].
Definition the_link : path := [RootDir; Normal [98%N]].
Definition to_target (p : path) : option path := if path_eqb p the_link then Some the_path else Some p.
Definition no_files : fsys := FS to_target (fun _ => None).
Definition one_file (t : text) : fsys :=
  FS to_target (fun p => if path_eqb p the_path then Some (Regular (enc t)) else None).

(** Calls made on a new buffer, or on one loaded from [the_path]. *)
Definition from_new (cs : list bcall) (f : fsys) : res (list bout * buffer * fsys) :=
  let* b0 := buffer_new tight in brun uax29_15 (map (pair tight) cs) b0 f.
Definition from_disk (cs : list bcall) (f : fsys) : res (list bout * buffer * fsys) :=
  match from_file tight f the_path with
  | Ok (ROk b0) => brun uax29_15 (map (pair tight) cs) b0 f
  | _ => Panic
  end.
