(** The pid file of gmid -P: [write_pidfile] (gmid.c:206-233) of any number of
    processes, interleaved with each other call by call, on a file system with
    fcntl(2) locks. *)
From Verif Require Import Base Fmt.
Local Open Scope N_scope.

(** ** gmid.c:206-233 *)
(** open(2) with O_WRONLY|O_CREAT|O_CLOEXEC ([trunc]: and O_TRUNC); fcntl(2) with
    F_SETLK on the whole file ([write]: F_WRLCK, else F_RDLCK); ftruncate(2) to 0;
    dprintf(3), as one write(2) *)
Inductive pcall := COpen (trunc : bool) | CLock (write : bool) | CTrunc | CWrite (b : list N).
(** the calls in order; "%d\n" *)
Definition program (pid : N) : list pcall := [COpen false; CLock true; CTrunc; CWrite (dec pid ++ [10])].
(** a failure is fatal, except that the result of dprintf is not looked at *)
Definition fatal_if_fails (c : pcall) : bool := match c with CWrite _ => false | _ => true end.

(** ** the file system *)
(** a process: calls done, the file it has open, its offset *)
Record proc := mkP { p_pc : nat; p_ino : nat; p_off : nat }.
Record sys := mkS {
  s_path : option nat;                       (* the file the name stands for *)
  s_data : nat -> list N; s_fresh : nat;     (* files; the next one *)
  s_lock : nat -> list (N * bool);           (* who has locked it, for writing? *)
  s_proc : N -> option proc }.               (* processes by pid *)
Definition boot : sys := mkS None (fun _ => []) 0 (fun _ => []) (fun _ => None).

Definition upd {A} (f : nat -> A) (i : nat) (x : A) (j : nat) : A := if (i =? j)%nat then x else f j.
Definition updp {A} (f : N -> A) (i : N) (x : A) (j : N) : A := if i =? j then x else f j.
Definition set_proc (p : N) (x : option proc) (s : sys) : sys := mkS (s_path s) (s_data s) (s_fresh s) (s_lock s) (updp (s_proc s) p x).
Definition set_data (i : nat) (d : list N) (s : sys) : sys := mkS (s_path s) (upd (s_data s) i d) (s_fresh s) (s_lock s) (s_proc s).
Definition set_lock (i : nat) (l : list (N * bool)) (s : sys) : sys := mkS (s_path s) (s_data s) (s_fresh s) (upd (s_lock s) i l) (s_proc s).

(** a process ends: its locks go *)
Definition die (p : N) (s : sys) : sys :=
  mkS (s_path s) (s_data s) (s_fresh s) (fun i => filter (fun x => negb (fst x =? p)) (s_lock s i)) (updp (s_proc s) p None).

(** bytes written at an offset *)
Definition write_at (d : list N) (off : nat) (b : list N) : list N :=
  firstn off (d ++ repeat 0 off) ++ b ++ skipn (off + length b) d.
Definition conflicts (p : N) (w : bool) (l : list (N * bool)) : bool := existsb (fun x => negb (fst x =? p) && (w || snd x)) l.

(** what happens: a process gets as far as [write_pidfile]; the next call of it
    ([fails]: for a reason of the system's; [n]: how much of the line is written at
    most); a process ends; somebody removes the file *)
Inductive event := EStart (p : N) | ECall (p : N) (fails : bool) (n : nat) | EEnd (p : N) | ERemove.

Definition next (p : N) (x : proc) : sys -> sys := set_proc p (Some x).
Definition call (p : N) (x : proc) (c : pcall) (fails : bool) (n : nat) (s : sys) : sys :=
  let failed := if fatal_if_fails c then die p s else next p (mkP (S (p_pc x)) (p_ino x) (p_off x)) s in
  if fails then failed else
  match c with
  | COpen trunc =>
    match s_path s with
    | Some i => next p (mkP (S (p_pc x)) i 0) (if trunc then set_data i [] s else s)
    | None => next p (mkP (S (p_pc x)) (s_fresh s) 0)
                (mkS (Some (s_fresh s)) (upd (s_data s) (s_fresh s) []) (S (s_fresh s)) (s_lock s) (s_proc s))
    end
  | CLock w => if conflicts p w (s_lock s (p_ino x)) then failed
               else next p (mkP (S (p_pc x)) (p_ino x) (p_off x)) (set_lock (p_ino x) ((p, w) :: s_lock s (p_ino x)) s)
  | CTrunc => next p (mkP (S (p_pc x)) (p_ino x) (p_off x)) (set_data (p_ino x) [] s)
  | CWrite b => let b := firstn n b in
                next p (mkP (S (p_pc x)) (p_ino x) (p_off x + length b)) (set_data (p_ino x) (write_at (s_data s (p_ino x)) (p_off x) b) s)
  end.

Definition step (e : event) (s : sys) : sys :=
  match e with
  | EStart p => match s_proc s p with None => next p (mkP 0 0 0) s | Some _ => s end
  | ECall p fails n =>
    match s_proc s p with
    | Some x => match nth_error (program p) (p_pc x) with Some c => call p x c fails n s | None => s end
    | None => s
    end
  | EEnd p => die p s
  | ERemove => mkS None (s_data s) (s_fresh s) (s_lock s) (s_proc s)
  end.
Definition run (es : list event) : sys := fold_left (fun s e => step e s) es boot.
