(** Where the access log goes, said of the messages the logger has handled. *)
From Verif Require Import Base Logger.
Local Open Scope N_scope.

Definition is_access (x : peer * imsg) : bool := match x with (Parent, mkImsg LOG_ACCESS _ _) => true | _ => false end.
Definition is_facility (x : peer * imsg) : bool := match x with (Parent, mkImsg LOG_FACILITY _ _) => true | _ => false end.
Definition is_syslog (x : peer * imsg) : bool := match x with (Parent, mkImsg LOG_SYSLOG _ _) => true | _ => false end.

(** what the main process said last *)
Definition log_file (tr : list (peer * imsg)) : option nat :=
  match find is_access (rev tr) with Some (_, m) => i_file m | None => None end.
Definition log_facility (tr : list (peer * imsg)) : N :=
  match find is_facility (rev tr) with Some (_, m) => int_of (i_data m) | None => 24 end.
Definition log_syslog (tr : list (peer * imsg)) : bool :=
  match find is_syslog (rev tr) with Some (_, m) => negb (int_of (i_data m) =? 0) | None => true end.

(** the text of a request: up to a NUL, the last byte left out *)
Fixpoint upto_nul (l : list N) : list N :=
  match l with [] => [] | c :: r => if c =? 0 then [] else c :: upto_nul r end.
Definition text (d : list N) : list N := upto_nul (removelast d).

Definition opt_list {A} (o : option A) : list A := match o with Some a => [a] | None => [] end.

(** the files that descriptors should be open on: the log's, and those of the
    messages not handled yet *)
Definition files_due (s : lg) (tr : list (peer * imsg)) : list nat :=
  opt_list (log_file tr) ++ flat_map (fun q => opt_list (i_file (snd (fst q)))) (l_queue s).

(** messages that are not for the process that gets them, or not as long as they
    should be *)
Definition bad (x : peer * imsg) : bool :=
  match x with
  | (Parent, mkImsg LOG_ACCESS _ _) => false
  | (Parent, mkImsg LOG_FACILITY d _) | (Parent, mkImsg LOG_SYSLOG d _) => negb (Nat.eqb (length d) 4)
  | (Server, mkImsg LOG_REQUEST d _) => Nat.eqb (length d) 0
  | _ => true
  end.
