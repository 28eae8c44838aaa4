(** Model of gg(1), the Gemini client: gg.c.

    The TLS library and the network are schedules: the results of tls_handshake(3),
    tls_write(3) and tls_read(3), call after call; a run whose schedule is used up is
    still going on.  write(2) to stdout writes everything.  Memory allocation
    succeeds; getopt(3) has already split the command line; the timer (-T) and the
    messages on stderr are not modelled, but for the text of the server. *)
From Verif Require Import Base Compat Fmt Iri IriSpec IriObs IriOut Titan.
Local Open Scope N_scope.

(** gg.c:27-33 *)
Inductive dmode := DNone | DCode | DHeader | DMeta | DAll.

(** the command line, gg.c:36-49; -P with its argument *)
Record gopts := mkG {
  g_debug : dmode; g_noname : bool; g_2 : bool; g_3 : bool; g_nop : bool; g_quiet : bool;
  g_cert : option (list N); g_key : option (list N); g_proxy : option (list N); g_sni : option (list N) }.

(** gg.c:348-361 — [parse_debug]; [None] is usage() *)
Definition parse_debug (arg : list N) : option dmode :=
  if leqb arg (s2b "none") then Some DNone
  else if leqb arg (s2b "code") then Some DCode
  else if leqb arg (s2b "header") then Some DHeader
  else if leqb arg (s2b "meta") then Some DMeta
  else if leqb arg (s2b "all") then Some DAll
  else None.

(** strchr(3) on a string, splitting it: before and after the first [c] *)
Fixpoint cut_at (c : N) (s : list N) : option (list N * list N) :=
  match s with
  | [] => None
  | x :: r => if x =? c then Some ([], r)
              else match cut_at c r with Some (a, b) => Some (x :: a, b) | None => None end
  end.
(** gg.c:363-385 — [parse_proxy]: host and port, [None] is errx(1) *)
Definition parse_proxy (arg : list N) : option (list N * list N) :=
  match arg with
  | 91 :: rest =>
    match cut_at 93 rest with
    | None => None
    | Some (h, []) => Some (h, s2b "1965")
    | Some (h, 58 :: p) => Some (h, p)
    | Some (_, _) => None
    end
  | _ =>
    match cut_at 58 arg with
    | None => Some (arg, s2b "1965")
    | Some (h, p) => Some (h, p)
    end
  end.

(** tls_handshake(3) *)
Inductive hres := Hwant | Herr | Hdone.

(** gg.c:138-158 — [doreq]: the bytes taken, and how it ended *)
Inductive done := Ok | Dead | Wait.
Fixpoint doreq (buf : list N) (s : list wres) : done * list N :=
  match buf with
  | [] => (Ok, [])
  | _ =>
    match s with
    | [] => (Wait, [])
    | Wwant :: s => doreq buf s
    | Werr :: _ | Wzero :: _ => (Dead, [])
    | Wtook n :: s => let '(d, w) := doreq (skipn (S n) buf) s in (d, firstn (S n) buf ++ w)
    end
  end.

(** gg.c:160-182 — [dorep]: the bytes stored and the rest of the schedule.  What does
    not fit stays in the TLS library; the end of the connection is there for ever *)
Fixpoint dorep (len : nat) (s : list rres) : done * list N * list rres :=
  match len with
  | O => (Ok, [], s)
  | _ =>
    match s with
    | [] => (Wait, [], [])
    | Rwant :: s => dorep len s
    | Rerr :: s => (Dead, [], s)
    | Reof :: _ => (Ok, [], s)
    | Rgot b bs :: s =>
      match skipn len (b :: bs) with
      | [] => let '(d, g, s) := dorep (len - length (b :: bs)) s in (d, (b :: bs) ++ g, s)
      | x :: r => (Ok, firstn len (b :: bs), Rgot x r :: s)
      end
    end
  end.

(** gg.c:184-202 — [safeprint].  [mb]: the number of bytes of the character at the head
    of a string, minus one, or [None] if there is none; [ctl]: wcwidth(3) of the character is -1.  putwc(3) writes the
    character back as it was *)
Fixpoint safeprint (fuel : nat) (mb : list N -> option nat) (ctl : list N -> bool) (s : list N) : res (list N) :=
  match s with
  | [] => OK [10]
  | c :: r =>
    match fuel with
    | O => Fuel
    | S fuel =>
      match mb s with
      | None => let* o := safeprint fuel mb ctl r in OK (63 :: o)
      | Some n =>
        let w := firstn (S n) s in
        let* o := safeprint fuel mb ctl (skipn (S n) s) in
        if ctl w then OK (63 :: o) else if leqb w [10] then OK o else OK (w ++ o)
      end
    end
  end.

(** the environment of a run *)
Record gworld := mkGW {
  gw_ip6 : list N -> bool;
  gw_iribuf : list N;                     (* the 1027 uninitialised bytes *)
  gw_buf : list N;                        (* the 2048 uninitialised bytes *)
  gw_keypair : list N -> list N -> bool;
  gw_dial : list N -> list N -> bool;
  gw_start : bool;
  gw_shake : list hres;
  gw_write : list wres;
  gw_read : list rres;
  gw_mb : list N -> option nat;
  gw_ctl : list N -> bool
}.
Record grun := mkGR {
  gr_end : ending;
  gr_out : list N;                         (* stdout *)
  gr_says : option (list N);               (* what safeprint wrote to stderr *)
  gr_pair : option (list N * list N);
  gr_peer : option (list N * list N);      (* connected to that host and port *)
  gr_name : option (list N);               (* the server name asked for *)
  gr_verify : bool;                        (* ... and verified *)
  gr_protos : bool * bool;                 (* TLSv1.2 and TLSv1.3 allowed *)
  gr_wire : list N
}.

(** gg.c:262-326: the loop that reads the answer; [buf] is what [buf] holds beyond
    what is read.  Result: how it ended (with [code]), stdout, the text of the server *)
Inductive fin := Code (c : Z) | Fatal | Waiting.
Definition BUF : nat := 2048.
Fixpoint fetch_body (fuel : nat) (code : Z) (s : list rres) : res (fin * list N) :=
  match fuel with
  | O => Fuel
  | S fuel =>
    let '(d, g, s) := dorep BUF s in
    match d with
    | Dead => OK (Fatal, [])
    | Wait => OK (Waiting, [])
    | Ok => match g with
            | [] => OK (Code code, [])
            | _ => let* (f, o) := fetch_body fuel code s in OK (f, g ++ o)
            end
    end
  end.
Definition first (f : res (fin * list N)) (o : list N) (says : option (list N)) : res (fin * list N * option (list N)) :=
  let* (f, o') := f in OK (f, o ++ o', says).
Definition printed (s : option (list N)) (code : Z) : res (fin * list N * option (list N)) :=
  match s with Some s => OK (Code code, s ++ [10], None) | None => UB end.
Definition fetch (W : gworld) (o : gopts) (s : list rres) : res (fin * list N * option (list N)) :=
  let fuel := S (length (concat (map (fun r => match r with Rgot b bs => b :: bs | _ => [] end) s))) in
  let '(d, g, s) := dorep BUF s in
  match d with
  | Dead => OK (Fatal, [], None)
  | Wait => OK (Waiting, [], None)
  | Ok =>
    match g with
    | [] => OK (Code (-1), [], None)                          (* :267-268: code is still -1 *)
    | _ =>
      let buf := g ++ skipn (length g) (gw_buf W) in
      let* t := memmem buf (length g) [13; 10] in
      match t with
      | None => OK (Fatal, [], None)                          (* :276-277 *)
      | Some t =>
        let* a := rd buf 0 in
        if negb (is_digit a) then OK (Fatal, [], None) else
        let* b := rd buf 1 in
        if negb (is_digit b) then OK (Fatal, [], None) else
        let* c := rd buf 2 in
        if negb (c =? 32) then OK (Fatal, [], None) else
        let code := ((Z.of_N a - 48) * 10 + Z.of_N b - 48)%Z in
        match g_debug o with
        | DCode => OK (Code code, decz code ++ [10], None)
        | DHeader => let* m := wr buf t 0 in printed (cstr m) code
        | DMeta => let* m := wr buf t 0 in printed (cstr_at m 3) code
        | DAll => first (fetch_body fuel code s) g None
        | DNone =>
          let* says :=
            if ((code <? 20) || (30 <=? code))%Z then
              let* m := wr buf t 0 in
              if g_quiet o then OK None else
              match cstr_at m 3 with
              | None => UB
              | Some x => let* y := safeprint (length x) (gw_mb W) (gw_ctl W) x in OK (Some y)
              end
            else OK None in
          first (fetch_body fuel code s) (skipn (t + 2) g) says       (* :322-324 *)
        end
      end
    end
  end.

(** gg.c:249-257: tls_handshake until it is done *)
Fixpoint handshake (s : list hres) : done :=
  match s with [] => Wait | Hwant :: s => handshake s | Herr :: _ => Dead | Hdone :: _ => Ok end.

(** exit(3) keeps the low 8 bits *)
Definition exit_status (c : Z) : nat := Z.to_nat (c mod 256).

(** gg.c:236-342: [get] from tls_client(3) on, [connectto], and the end of [main];
    [host] and [port] are those of the proxy if there is one (gg.c:92-96) *)
Definition gsession (W : gworld) (o : gopts) (kp : option (list N * list N)) (verify : bool) (protos : bool * bool)
    (host port req : list N) : res grun :=
  let sname := match g_sni o with Some n => n | None => host end in
  if negb (gw_dial W host port) then OK (mkGR (Exit 1) [] None kp None None verify protos []) else
  let run e out says w := mkGR e out says kp (Some (host, port)) (Some sname) verify protos w in
  if negb (gw_start W) then OK (run (Exit 1) [] None []) else
  match handshake (gw_shake W) with
  | Dead => OK (run (Exit 1) [] None [])
  | Wait => OK (run Running [] None [])
  | Ok =>
    let '(d, w) := doreq req (gw_write W) in
    match d with
    | Dead => OK (run (Exit 1) [] None w)
    | Wait => OK (run Running [] None w)
    | Ok =>
      let* (f, out, says) := fetch W o (gw_read W) in
      OK (run (match f with
               | Fatal => Exit 1
               | Waiting => Running
               | Code code => Exit (if ((20 <=? code) && (code <? 30))%Z then 0%nat else exit_status code)   (* main *)
               end) out says w)
    end
  end.

(** gg.c:206-235, 59-81 and 388-471 — [get], [load_tls_conf], [main] *)
Definition gg (W : gworld) (o : gopts) (url : list N) : res grun :=
  let protos := (negb (g_3 o), negb (g_2 o)) in
  let verify := negb (g_noname o || match g_proxy o with Some _ => true | None => false end) in    (* -P, :432-435 *)
  let stop k := mkGR (Exit k) [] None None None None verify protos [] in
  match match g_proxy o with Some a => match parse_proxy a with Some p => Some (Some p) | None => None end | None => Some None end with
  | None => OK (stop 1%nat)
  | Some proxy =>
    if g_2 o && g_3 o then OK (stop 1%nat) else                                            (* :451-454 *)
    match match g_cert o, g_key o with Some c, Some k => Some (Some (c, k)) | None, None => Some None | _, _ => None end with
    | None => OK (stop 1%nat)                                                              (* :456-460 *)
    | Some kp =>
      if negb (match kp with Some (c, k) => gw_keypair W c k | None => true end) then OK (stop 1%nat) else
      let* (l, b) := strlcpy (gw_iribuf W) (z url) GEMINI_URL_LEN in
      if (GEMINI_URL_LEN <=? l)%nat then OK (stop 1%nat) else
      if (GEMINI_URL_LEN <=? length url + 2)%nat then OK (stop 1%nat) else                 (* snprintf, :221-223 *)
      let req := url ++ [13; 10] in
      let* (ok, p) := parse_iri (gw_ip6 W) b in
      if negb ok then OK (stop 1%nat) else
      if g_nop o then OK (stop 0%nat) else                                                 (* :228-229 *)
      match comps_of p with
      | None => UB
      | Some c =>
        let port := match c_port c with [] => s2b "1965" | p => p end in
        let '(host, port) := match proxy with Some hp => hp | None => (c_host c, port) end in
        gsession W o kp verify protos host port req
      end
    end
  end.
