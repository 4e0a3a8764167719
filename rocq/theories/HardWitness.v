(** A disk with hard links and sessions on it, for the examples. *)
From Coq Require Import String.
From Verif Require Import Base Utf8 Grapheme UnicodeTable Position GapBuffer Cursor PathModel Buffer
  BufferCalls Witness Token Workspace WorkspaceSpec WorkspaceWitness HardLinks.

(** The disk of WorkspaceWitness.v, with [twin] as a second name of [a_rs]. *)
Definition twin : path := [RootDir; name "w"; name "twin.rs"].
Definition hard_disk : hdisk :=
  HD (fs_target disk)
     (fun q => if path_eqb q a_rs then Some 1%N else if path_eqb q twin then Some 1%N else
               if path_eqb q b_txt then Some 2%N else if path_eqb q dir then Some 3%N else None)
     (fun i => if N.eqb i 1 then Regular (enc (txt "fn")) else if N.eqb i 2 then Regular (enc (txt "b" ++ nl)) else Special).
Definition hard_play (hs : list hcall) : res (list wout * workspace * hdisk) :=
  match ws_new (seen hard_disk) dir (Some syntaxes) with
  | ROk w0 => hrun uax29_15 (map (pair tight) hs) w0 hard_disk
  | RErr _ => Panic
  end.

Definition a_session : list hcall :=
  [HCall (WOpen link); HCall (WOpen [name "a.rs"]); HCall (WEdit (BInsert (txt "x"))); HSave WriteSucceeds 7%N].
Definition two_names : list hcall :=
  [HCall (WOpen a_rs); HCall (WOpen twin); HCall (WEdit (BInsert (txt "y"))); HCall WPrevious; HCall (WEdit (BInsert (txt "x")));
   HSave WriteSucceeds 7%N; HCall WNext; HSave WriteSucceeds 7%N].
