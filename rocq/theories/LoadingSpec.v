(** What is said about loads step by step. *)
From Verif Require Import Base Utf8 PathModel Buffer Saving Loading.

(** The disk after these happenings. *)
Definition disk_after (p : path) (es : list lhappening) (f : fsys) : fsys := snd (loading p es (Asking, f)).

(** Whatever other programs do, the path leads to the same file with the same
    contents. *)
Definition leave_alone (p : path) (es : list lhappening) (f : fsys) : Prop :=
  forall f', In (Elsewhere f') es -> fs_target f' p = fs_target f p /\ fs_read f' p = fs_read f p.

(** Other programs only add to the end of the file, as to a log: at a later moment
    it holds what it held, and perhaps more. *)
Definition only_append (p : path) (es : list lhappening) (f : fsys) : Prop :=
  forall es1 es2 es3, es = es1 ++ es2 ++ es3 ->
    fs_target (disk_after p (es1 ++ es2) f) p = fs_target (disk_after p es1 f) p /\
    forall bs, fs_read (disk_after p es1 f) p = Some bs ->
      exists more, fs_read (disk_after p (es1 ++ es2) f) p = Some (bs ++ more).

(** Nothing but the load and the save happens to the disk. *)
Definition only_they (es : list (lhappening + happening)) : Prop :=
  forall f, ~ In (inl (Elsewhere f)) es /\ ~ In (inr (Other f)) es.

(** The first [k] bytes of [a], then what comes after the first [k] bytes in the
    first [m] bytes of [b]. *)
Definition mixture (a b : list byte) (k m : nat) : list byte := firstn k a ++ skipn k (firstn m b).

(** Every read gives something while there is something; the load may be
    interrupted as often as the operating system likes. *)
Definition readable (e : lhappening) : Prop := match e with Took _ | Paused => True | _ => False end.
Definition is_read (e : lhappening) : bool := match e with Took _ => true | _ => false end.
