(** Reloading in the main process: gmid.c:305-352 (startup), 412-509
    (main_send_logfd, main_configure, main_configure_done, main_reload),
    511-541 (signals), config.c:30-56, 58-162 (the fields named here).
    Parsing, sending and the processes are reduced to their outcomes: a parsed
    file is what it sets; sending succeeds (then every server process and the
    crypto process answer once, C29), gives up (config_send returns -1), or
    exits (fatal). *)
From Verif Require Import Base.
Local Open Scope N_scope.

(** the directives of a file that matter here; [None]: not there *)
Record file := mkFile { f_prefork : option nat; f_user : bool; f_chroot : list N; f_log : option (list N) }.

(** gmid.h:267-288 [struct conf], some fields *)
Record mconf := mkMconf { mc_prefork : nat; mc_chroot : list N; mc_log : option (list N); mc_reload : nat }.

Record main := mkMain { m_conf : mconf;
  m_workers : nat;                     (* ps_instances[PROC_SERVER], set at startup, and the crypto process *)
  m_pending : nat;                     (* acknowledgements not read yet *)
  m_logged : option (list N);          (* the file the logger was last told to write to *)
  m_started : nat }.                   (* how many configurations the workers were sent *)

Inductive parsed := Good (f : file) | Bad (f : file).   (* Bad: what was set before the error *)
Inductive sending := SentAll | SentSome | SentNever.   (* done, -1, fatal *)
Inductive event := Hup (p : parsed) (s : sending) | Usr1 | Ack.

Section Reload.
(** getpwnam(user)->pw_dir *)
Variable home : list N.

(** config.c:30-56 — [config_new], then parse_conf and gmid.c:318-352 *)
Definition apply_file (c : mconf) (f : file) : mconf :=
  mkMconf (match f_prefork f with Some n => n | None => mc_prefork c end)
          (match f_chroot f with [] => mc_chroot c | x => x end)
          (match f_log f with Some l => Some l | None => mc_log c end) (mc_reload c).

(** gmid.c:412-443 — [main_send_logfd]: the path opened ([None]: no file) *)
Definition log_path (c : mconf) : option (list N) :=
  match mc_log c with
  | None => None
  | Some l =>
    let p := mc_chroot c ++ (match mc_chroot c with [] => [] | _ => [47] end) ++ l in
    if 4096 <=? N.of_nat (length p) then None else Some p
  end.
Definition main_send_logfd (m : main) : main :=
  mkMain (m_conf m) (m_workers m) (m_pending m) (log_path (m_conf m)) (m_started m).

(** gmid.c:445-469 — [main_configure]; [None]: the process is gone *)
Definition main_configure (s : sending) (m0 : main) : option main :=
  let m := main_send_logfd m0 in
  let c := m_conf m in
  let c' := mkMconf (mc_prefork c) (mc_chroot c) (mc_log c) (mc_prefork c + 1) in
  match s with
  | SentNever => None
  | SentSome => Some (mkMain c' (m_workers m) (m_pending m) (m_logged m) (S (m_started m)))
  | SentAll => Some (mkMain c' (m_workers m) (m_pending m + (m_workers m + 1)) (m_logged m) (S (m_started m)))
  end.

(** gmid.c:315-352, 396-404 — startup: the workers are as many as the file says *)
Definition start (f : file) : option main :=
  let c := apply_file (mkMconf 3 [] None 0) f in
  let c := mkMconf (mc_prefork c) (if f_user f then (match mc_chroot c with [] => home | x => x end) else mc_chroot c) (mc_log c) 0 in
  main_configure SentAll (mkMain c (mc_prefork c) 0 None 0).

(** config.c:58-162 — [config_purge]: everything here becomes 0 *)
Definition purged : mconf := mkMconf 0 [] None 0.

(** gmid.c:483-509 — [main_reload] *)
Definition main_reload (p : parsed) (s : sending) (m : main) : option main :=
  if negb (Nat.eqb (mc_reload (m_conf m)) 0) then Some m else
  let prefork := mc_prefork (m_conf m) in
  match p with
  | Bad f => Some (mkMain (apply_file purged f) (m_workers m) (m_pending m) (m_logged m) (m_started m))
  | Good f => let c := apply_file purged f in
              main_configure s (mkMain (mkMconf prefork (mc_chroot c) (mc_log c) (mc_reload c)) (m_workers m) (m_pending m) (m_logged m) (m_started m))
  end.

(** gmid.c:471-481 — [main_configure_done], when an acknowledgement is there *)
Definition main_configure_done (m : main) : main :=
  match m_pending m with
  | O => m
  | S k => let c := m_conf m in
           mkMain (mkMconf (mc_prefork c) (mc_chroot c) (mc_log c) (Nat.pred (mc_reload c))) (m_workers m) k (m_logged m) (m_started m)
  end.

(** gmid.c:511-541 — [main_sig_handler], main_dispatch_* *)
Definition step (e : event) (m : main) : option main :=
  match e with
  | Hup p s => main_reload p s m
  | Usr1 => Some (main_send_logfd m)
  | Ack => Some (main_configure_done m)
  end.
Fixpoint run (es : list event) (m : main) : option main :=
  match es with [] => Some m | e :: r => match step e m with Some m' => run r m' | None => None end end.
End Reload.
