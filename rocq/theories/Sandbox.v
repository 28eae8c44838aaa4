(** sandbox.c:52-256 — confinement with Landlock, on Linux.

    What the calls of Landlock do is as landlock(7) and the kernel's documentation have
    it; each may fail.  The version for OpenBSD (pledge) is not modelled. *)
From Verif Require Import Base.
From Verif Require Main.
Local Open Scope nat_scope.

(** ** the kernel *)
(** what can be restricted; [IoctlDev] gmid does not know *)
Inductive right := Execute | ReadFile | ReadDir | WriteFile | RemoveDir | RemoveFile | MakeChar | MakeDir | MakeReg | MakeSock | MakeFifo | MakeBlock | MakeSym
| Refer | Truncate | IoctlDev.
Scheme Equality for right.
Definition mem (a : right) (l : list right) : bool := existsb (right_beq a) l.
(** the version of Landlock (1, 2, ...) that has it *)
Definition since (a : right) : nat := match a with Refer => 2 | Truncate => 3 | IoctlDev => 5 | _ => 1 end.

(** a directory or file: the names from the root of the system *)
Definition path := list (list N).
Fixpoint beneath (d p : path) : bool :=
  match d, p with [], _ => true | x :: d, y :: p => if list_eq_dec N.eq_dec x y then beneath d p else false | _, [] => false end.

Record ruleset := mkRules { handled : list right; rules : list (path * list right) }.
Definition grants (r : ruleset) (p : path) (a : right) : bool := existsb (fun e => beneath (fst e) p && mem a (snd e)) (rules r).
(** landlock(7): an access is allowed if every layer grants it or does not handle it;
    moving files between directories is denied unless it is granted *)
Definition permits (layers : list ruleset) (p : path) (a : right) : bool :=
  forallb (fun r => grants r p a || negb (mem a (handled r)) && negb (right_beq a Refer)) layers.

Inductive errno := ENOSYS | EOPNOTSUPP | EINVAL | EPERM | Other (n : nat).
(** what the calls do: the version, or why there is none; which calls fail *)
Record kernel := mkK { k_abi : nat + errno; k_prctl : option errno; k_create : option errno; k_open : option errno; k_rule : option errno; k_restrict : option errno }.

(** ** the process *)
(** [landlock_state] (0, 1, 2; -1), the ruleset of [landlock_fd], PR_SET_NO_NEW_PRIVS,
    the layers of the process, what "/" is *)
Record proc := mkP { p_state : Z; p_fd : ruleset; p_nnp : bool; p_layers : list ruleset; p_root : path }.
Definition set_state (z : Z) (p : proc) : proc := mkP z (p_fd p) (p_nnp p) (p_layers p) (p_root p).
Definition set_fd (r : ruleset) (p : proc) : proc := mkP (p_state p) r (p_nnp p) (p_layers p) (p_root p).
Definition ret : Type := option errno * proc.  (* [None]: 0; [Some e]: -1 and errno *)

(** sandbox.c:115-137 *)
Definition all_rights : list right :=
  [Execute; ReadFile; ReadDir; WriteFile; RemoveDir; RemoveFile; MakeChar; MakeDir; MakeReg; MakeSock; MakeFifo; MakeBlock; MakeSym; Refer; Truncate].
Definition without (a : right) (l : list right) : list right := filter (fun b => negb (right_beq a b)) l.

(** landlock_create_ruleset(2) *)
Definition create_ruleset (k : kernel) (abi : nat) (h : list right) : ruleset + errno :=
  if forallb (fun a => since a <=? abi) h then match k_create k with None => inl (mkRules h []) | Some e => inr e end else inr EINVAL.
(** sandbox.c:111-155 — [landlock_init] *)
Definition landlock_init (k : kernel) (p : proc) : (ruleset + errno) * proc :=
  match k_prctl k with
  | Some e => (inr e, p)
  | None =>
    let p := mkP (p_state p) (p_fd p) true (p_layers p) (p_root p) in
    match k_abi k with
    | inr e => (inr e, p)
    | inl abi =>
      let h := all_rights in
      let h := if abi <? 2 then without Refer h else h in
      let h := if abi <? 3 then without Truncate h else h in
      (create_ruleset k abi h, set_state 1 p)
    end
  end.

(** landlock_restrict_self(2) *)
Definition restrict_self (k : kernel) (p : proc) : ret :=
  match k_restrict k with
  | Some e => (Some e, p)
  | None => if p_nnp p then (None, mkP (p_state p) (p_fd p) (p_nnp p) (p_fd p :: p_layers p) (p_root p)) else (Some EPERM, p)
  end.
(** sandbox.c:157-173 — [landlock_lock] *)
Definition landlock_lock (k : kernel) (p : proc) : ret :=
  match restrict_self k p with
  | (Some e, p) => (Some e, set_state (-1) p)
  | (None, p) => (None, set_state 2 p)
  end.

(** landlock_add_rule(2), of the open directory *)
Definition add_rule (k : kernel) (d : path) (al : list right) (p : proc) : ret :=
  if forallb (fun a => mem a (handled (p_fd p))) al then
    match k_rule k with
    | None => (None, set_fd (mkRules (handled (p_fd p)) ((d, al) :: rules (p_fd p))) p)
    | Some e => (Some e, p)
    end
  else (Some EINVAL, p).

(** sandbox.c:175-224 — [landlock_unveil], with ("/", "r") or (NULL, NULL) *)
Definition landlock_unveil (k : kernel) (root : bool) (p : proc) : ret :=
  let '(r, p) :=
    if Z.eqb (p_state p) 0 then
      match landlock_init k p with
      | (inr e, p) => (Some (match e with ENOSYS | EOPNOTSUPP => None | _ => Some e end), set_state (-1) p)
      | (inl f, p) => (None, set_fd f p)
      end
    else (None, p) in
  match r with
  | Some r => (r, p)
  | None =>
    if Z.eqb (p_state p) (-1) then (None, p) else
    if negb root then landlock_lock k p else
    if negb (Z.eqb (p_state p) 1) then (Some EINVAL, p) else
    match k_open k with
    | Some e => (Some e, p)
    | None => add_rule k (p_root p) [ReadFile; ReadDir] p
    end
  end.

Inductive result := Fatal | Goes (p : proc).
(** sandbox.c:232-240 — [sandbox_server_process] *)
Definition sandbox_server_process (k : kernel) (p : proc) : result :=
  match landlock_unveil k true p with
  | (Some _, _) => Fatal
  | (None, p) => match landlock_unveil k false p with (Some _, _) => Fatal | (None, p) => Goes p end
  end.
(** sandbox.c:242-256 — [sandbox_crypto_process], [sandbox_logger_process] *)
Definition sandbox_crypto_process (k : kernel) (p : proc) : result :=
  match landlock_unveil k false p with (Some _, _) => Fatal | (None, p) => Goes p end.
Definition sandbox_logger_process := sandbox_crypto_process.

Inductive role := Server | Crypto | Logger.
Definition sandbox (r : role) (k : kernel) (p : proc) : result :=
  match r with Server => sandbox_server_process k p | Crypto => sandbox_crypto_process k p | Logger => sandbox_logger_process k p end.

(** proc.c:533-609 — [proc_run] up to [event_dispatch]: privileges first (Main.v), then
    server.c:1564-1589, crypto.c:66-78, logger.c:59-69.  [dir]: what directory
    chroot(2) makes "/" *)
Definition until_dispatch (ok : Main.call -> bool) (dir : Main.word -> path) (k : kernel) (who : option (Main.passwd * Main.word)) (r : role) (layers : list ruleset) : result :=
  let '(calls, on) := Main.proc_run ok who in
  if on then
    sandbox r k (mkP 0 (mkRules [] []) false layers (fold_left (fun root c => match c with Main.Chroot d => dir d | _ => root end) calls []))
  else Fatal.
