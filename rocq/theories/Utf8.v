(** UTF-8: Rust [char]s are Unicode scalar values, Rust [str]s are UTF-8
    encoded sequences of them. *)
From Verif Require Import Base.
Local Open Scope N_scope.

Notation byte := N (only parsing).
Notation char := N (only parsing).
(** A Rust [&str] / [String]: the sequence of its [char]s. *)
Notation text := (list N) (only parsing).

Definition LF : char := 10.
Definition CR : char := 13.
Definition REPLACEMENT : char := 65533. (* U+FFFD *)

(** Valid Rust [char]: Unicode scalar value. *)
Definition scalar (c : char) : bool :=
  (c <? 55296) || ((57344 <=? c) && (c <? 1114112)).

Definition valid_text (s : text) : Prop := Forall (fun c => scalar c = true) s.

(** [char::encode_utf8]. Models std, used through [str::as_bytes] at
    src/buffer/gap_buffer.rs:30 and [str::bytes] at gap_buffer.rs:292. *)
Definition enc1 (c : char) : list byte :=
  if c <? 128 then [c]
  else if c <? 2048 then [192 + c / 64; 128 + c mod 64]
  else if c <? 65536 then [224 + c / 4096; 128 + (c / 64) mod 64; 128 + c mod 64]
  else [240 + c / 262144; 128 + (c / 4096) mod 64; 128 + (c / 64) mod 64; 128 + c mod 64].

(** [str::as_bytes]. *)
Definition enc (s : text) : list byte := flat_map enc1 s.

(** [char::len_utf8]. *)
Definition len1 (c : char) : nat := length (enc1 c).

(** [str::len]: length in bytes. *)
Definition blen (s : text) : nat := length (enc s).

(** Continuation byte test [byte & 192 == 128]. *)
Definition cont (b : byte) : bool := (128 <=? b) && (b <? 192).
Definition between (lo b hi : N) : bool := (lo <=? b) && (b <=? hi).

(** Second-byte constraints of three and four byte sequences
    (core::str::lossy, [Utf8Chunks::next]). *)
Definition second3 (b0 b1 : byte) : bool :=
  if b0 =? 224 then between 160 b1 191
  else if b0 =? 237 then between 128 b1 159
  else between 128 b1 191.
Definition second4 (b0 b1 : byte) : bool :=
  if b0 =? 240 then between 144 b1 191
  else if b0 =? 244 then between 128 b1 143
  else between 128 b1 191.

(** [String::from_utf8_lossy], as used at src/buffer/gap_buffer.rs:122-130,
    208, 234, 302-303: maximal invalid prefixes become U+FFFD. Follows
    core::str::lossy ([utf8_char_width], [Utf8Chunks::next]). *)
Fixpoint decode_lossy (bs : list byte) : text :=
  match bs with
  | [] => []
  | b0 :: r0 =>
    if b0 <? 128 then b0 :: decode_lossy r0
    else if between 194 b0 223 then
      match r0 with
      | b1 :: r1 =>
        if cont b1 then ((b0 - 192) * 64 + (b1 - 128)) :: decode_lossy r1
        else REPLACEMENT :: decode_lossy r0
      | [] => [REPLACEMENT]
      end
    else if between 224 b0 239 then
      match r0 with
      | b1 :: r1 =>
        if second3 b0 b1 then
          match r1 with
          | b2 :: r2 =>
            if cont b2
            then ((b0 - 224) * 4096 + (b1 - 128) * 64 + (b2 - 128)) :: decode_lossy r2
            else REPLACEMENT :: decode_lossy r1
          | [] => [REPLACEMENT]
          end
        else REPLACEMENT :: decode_lossy r0
      | [] => [REPLACEMENT]
      end
    else if between 240 b0 244 then
      match r0 with
      | b1 :: r1 =>
        if second4 b0 b1 then
          match r1 with
          | b2 :: r2 =>
            if cont b2 then
              match r2 with
              | b3 :: r3 =>
                if cont b3
                then ((b0 - 240) * 262144 + (b1 - 128) * 4096 + (b2 - 128) * 64 + (b3 - 128))
                       :: decode_lossy r3
                else REPLACEMENT :: decode_lossy r2
              | [] => [REPLACEMENT]
              end
            else REPLACEMENT :: decode_lossy r1
          | [] => [REPLACEMENT]
          end
        else REPLACEMENT :: decode_lossy r0
      | [] => [REPLACEMENT]
      end
    else REPLACEMENT :: decode_lossy r0
  end.

(** [String::from_utf8] (strict), as used by [fs::read_to_string] at
    src/buffer/mod.rs:115,416: decoding succeeds iff the bytes are the encoding
    of some text. Simplification: expressed by re-encoding the lossy result;
    an ill-formed sequence never re-encodes to itself. *)
Definition list_N_eqb (a b : list N) : bool :=
  if list_eq_dec N.eq_dec a b then true else false.
Definition decode_strict (bs : list byte) : option text :=
  let s := decode_lossy bs in
  if list_N_eqb (enc s) bs then Some s else None.
