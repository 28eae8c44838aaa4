(** Common vocabulary of the model: bytes, C outcomes, byte buffers.

    A byte is an [N] (below 256 in well-formed memory).  A C object of type
    [char\[\]] is a [list N]; a pointer into it is a [nat] offset.  Every read
    or write outside the list is the distinct outcome [UB]; a loop that runs
    out of fuel is the distinct outcome [Fuel]. *)
From Coq Require Export String Ascii.
From Coq Require Export List NArith ZArith Arith Lia Bool.
From Coq Require Export ZifyBool ZifyNat ZifyN.
Export ListNotations.
#[global] Open Scope list_scope.
#[global] Open Scope nat_scope.

Arguments N.add : simpl never.
Arguments N.mul : simpl never.
Arguments N.sub : simpl never.
Arguments N.eqb : simpl nomatch.
Arguments N.leb : simpl never.
Arguments N.ltb : simpl never.
Arguments N.div : simpl never.
Arguments N.modulo : simpl never.
Arguments Z.add : simpl never.
Arguments Z.mul : simpl never.
Arguments Z.sub : simpl never.

(** Outcome of a piece of C: a value, undefined behaviour, or fuel exhausted. *)
Inductive res (A : Type) : Type :=
| OK (a : A)
| UB
| Fuel.
Arguments OK {A} a.
Arguments UB {A}.
Arguments Fuel {A}.

Definition bind {A B} (x : res A) (f : A -> res B) : res B :=
  match x with OK a => f a | UB => UB | Fuel => Fuel end.

Notation "'let*' x := e 'in' f" := (bind e (fun x => f))
  (at level 200, x pattern, e at level 100, f at level 200).

(** Short-circuit conjunction and disjunction of C conditions that read memory. *)
Definition andr (a b : res bool) : res bool := let* x := a in if x then b else OK false.
Definition orr (a b : res bool) : res bool := let* x := a in if x then OK true else b.

(** [*p], [*p = v] on a buffer. *)
Definition rd (m : list N) (p : nat) : res N :=
  match nth_error m p with Some c => OK c | None => UB end.

Definition wr (m : list N) (p : nat) (v : N) : res (list N) :=
  if p <? length m then OK (firstn p m ++ v :: skipn (S p) m) else UB.

(** The C string stored at the head of a buffer: the bytes before the first
    NUL; [None] when there is no NUL (reading it would run off the buffer). *)
Fixpoint cstr (m : list N) : option (list N) :=
  match m with
  | [] => None
  | c :: r => if (c =? 0)%N then Some []
              else match cstr r with Some l => Some (c :: l) | None => None end
  end.

Definition cstr_at (m : list N) (p : nat) : option (list N) := cstr (skipn p m).

(** strlen(3) *)
Definition strlen (m : list N) (p : nat) : res nat :=
  match cstr_at m p with Some l => OK (length l) | None => UB end.

(** memmove(3) inside one buffer *)
Definition memmove (m : list N) (d s n : nat) : res (list N) :=
  if (d + n <=? length m) && (s + n <=? length m)
  then OK (firstn d m ++ firstn n (skipn s m) ++ skipn (d + n) m)
  else UB.

(** ctype(3) in the "C" (or any UTF-8) locale: bytes above 127 are in no class. *)
Definition is_digit (c : N) : bool := ((48 <=? c) && (c <=? 57))%N.
Definition is_upper (c : N) : bool := ((65 <=? c) && (c <=? 90))%N.
Definition is_lower (c : N) : bool := ((97 <=? c) && (c <=? 122))%N.
Definition is_alpha (c : N) : bool := is_upper c || is_lower c.
Definition is_alnum (c : N) : bool := is_alpha c || is_digit c.
Definition is_xdigit (c : N) : bool :=
  is_digit c || ((65 <=? c) && (c <=? 70))%N || ((97 <=? c) && (c <=? 102))%N.
Definition to_lower (c : N) : N := if is_upper c then (c + 32)%N else c.
Definition to_upper (c : N) : N := if is_lower c then (c - 32)%N else c.

(** value of a hexadecimal digit *)
Definition hexval (c : N) : N :=
  if is_digit c then (c - 48)%N
  else if ((65 <=? c) && (c <=? 70))%N then (c - 55)%N
  else if ((97 <=? c) && (c <=? 102))%N then (c - 87)%N
  else 0%N.

(** string literals as byte lists *)
Fixpoint s2b (s : string) : list N :=
  match s with
  | EmptyString => []
  | String a r => N_of_ascii a :: s2b r
  end.

(** Well-formed C strings: no NUL inside, bytes below 256. *)
Definition nonul (s : list N) : Prop := Forall (fun c => c <> 0%N) s.
Definition bytes (s : list N) : Prop := Forall (fun c => (c < 256)%N) s.

Fixpoint leqb (a b : list N) : bool :=
  match a, b with
  | [], [] => true
  | x :: a', y :: b' => (x =? y)%N && leqb a' b'
  | _, _ => false
  end.
