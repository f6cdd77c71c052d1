(** The encodings of text: UTF-8 (RFC 3629) and UTF-16 (RFC 2781). *)
From Verif Require Import Text.

Definition utf8 (c : char) : list N :=
  (if c <? 128 then [c]
   else if c <? 2048 then [192 + c / 64; 128 + c mod 64]
   else if c <? 65536 then [224 + c / 4096; 128 + c / 64 mod 64; 128 + c mod 64]
   else [240 + c / 262144; 128 + c / 4096 mod 64; 128 + c / 64 mod 64; 128 + c mod 64])%N.
Definition utf16 (c : char) : list N :=
  (if c <? 65536 then [c] else [55296 + (c - 65536) / 1024; 56320 + (c - 65536) mod 1024])%N.
Definition utf8_text (t : text) : list N := flat_map utf8 t.
(** Unicode scalar values: what a Rust [char] can be. *)
Definition scalar (c : char) : Prop := (c < 55296 \/ (57344 <= c /\ c < 1114112))%N.
