(** What vis(3) promises: an encoded text is made of printing characters other
    than space, and unvis(3) gets the original back. *)
From Verif Require Import Base.
Local Open Scope N_scope.

(** a printing character, not a blank *)
Definition printing (b : N) : Prop := 33 <= b <= 126.

(** one encoded character as the manual describes it (vis(3), default format
    plus VIS_DQ): itself; backslash escaping itself or a double quote; three
    octal digits; control characters as \^C, bytes with the eighth bit as \M-C
    or \M^C *)
Definition is_octal (b : N) : Prop := 48 <= b <= 55.
(** [ctl x c]: the letter [x] after a caret denotes the control character [c] *)
Definition ctl (x c : N) : Prop := (x = 63 /\ c = 127) \/ (64 <= x /\ x = c + 64).
Inductive denotes : list N -> N -> Prop :=
| den_self b : b <> 92 -> b <> 34 -> denotes [b] b
| den_slash : denotes [92; 92] 92
| den_quote : denotes [92; 34] 34
| den_octal x y z : is_octal x -> is_octal y -> is_octal z ->
    denotes [92; x; y; z] ((x - 48) * 64 + (y - 48) * 8 + (z - 48))
| den_ctl x c : ctl x c -> denotes [92; 94; x] c
| den_meta x : denotes [92; 77; 45; x] (x + 128)
| den_mctl x c : ctl x c -> denotes [92; 77; 94; x] (c + 128).

(** a text is read off an encoded one character by character *)
Inductive decodes : list N -> list N -> Prop :=
| dec_nil : decodes [] []
| dec_cons e b es bs : denotes e b -> decodes es bs -> decodes (e ++ es) (b :: bs).
