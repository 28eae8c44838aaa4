(** The lists of a configuration on memory with pointers: the TAILQ macros of
    compat/queue.h, and how gmid fills and purges the lists (config.c:31-162,
    :578-711; parse.y; utils.c:464-500).

    Every object (host, location, address, ...) is on the list its kind is for; a
    list's head is in the configuration or in a host or a location.  Reading or
    writing what is not allocated is [UB].  Only the pointers are modelled. *)
From Verif Require Import Base.
Local Open Scope nat_scope.

(** gmid.h: struct fcgi, vhost, pki, address (of the daemon), address (of a host),
    location, alist, proxy, envlist *)
Inductive kind := KFcgi | KHost | KPki | KAddr | KHaddr | KLoc | KAlias | KProxy | KEnv.
Scheme Equality for kind.
(** what the heads of lists of that kind are in; [None]: struct conf *)
Definition owner (k : kind) : option kind :=
  match k with KFcgi | KHost | KPki | KAddr => None | KHaddr | KLoc | KAlias | KProxy => Some KHost | KEnv => Some KLoc end.

(** a head: in which object (0: the configuration), of which list.  Where a pointer
    to an object can be: a head's tqh_first, an object's tqe_next. *)
Definition head := (nat * kind)%type.
Inductive cell := First (h : head) | Next (x : nat).
Definition heq (a b : head) : bool := (fst a =? fst b) && kind_beq (snd a) (snd b).
Definition ceq (a b : cell) : bool := match a, b with First a, First b => heq a b | Next a, Next b => a =? b | _, _ => false end.

(** 0 is NULL; [knd]: what is allocated at an address *)
Record mem := mkM { knd : nat -> option kind; ptr : cell -> nat; tql : head -> option cell; prv : nat -> option cell }.
Definition blank : mem := mkM (fun _ => None) (fun _ => 0) (fun _ => None) (fun _ => None).

Definition okind_beq (a b : option kind) : bool := match a, b with Some a, Some b => kind_beq a b | None, None => true | _, _ => false end.
Definition alive (m : mem) (x : nat) : bool := negb (x =? 0) && match knd m x with Some _ => true | None => false end.
Definition hlive (m : mem) (h : head) : bool :=
  match owner (snd h) with None => fst h =? 0 | Some k => negb (fst h =? 0) && okind_beq (knd m (fst h)) (Some k) end.
Definition clive (m : mem) (c : cell) : bool := match c with First h => hlive m h | Next x => alive m x end.

Definition get (m : mem) (c : cell) : res nat := if clive m c then OK (ptr m c) else UB.
Definition set (c : cell) (v : nat) (m : mem) : res mem :=
  if clive m c then OK (mkM (knd m) (fun d => if ceq c d then v else ptr m d) (tql m) (prv m)) else UB.
(** through a [struct type **] *)
Definition set_at (c : option cell) (v : nat) (m : mem) : res mem := match c with Some c => set c v m | None => UB end.
Definition get_last (m : mem) (h : head) : res (option cell) := if hlive m h then OK (tql m h) else UB.
Definition set_last (h : head) (c : option cell) (m : mem) : res mem :=
  if hlive m h then OK (mkM (knd m) (ptr m) (fun g => if heq h g then c else tql m g) (prv m)) else UB.
Definition get_prev (m : mem) (x : nat) : res (option cell) := if alive m x then OK (prv m x) else UB.
Definition set_prev (x : nat) (c : option cell) (m : mem) : res mem :=
  if alive m x then OK (mkM (knd m) (ptr m) (tql m) (fun y => if x =? y then c else prv m y)) else UB.

(** queue.h — TAILQ_INIT *)
Definition TAILQ_INIT (h : head) (m : mem) : res mem :=
  let* m := set (First h) 0 m in
  set_last h (Some (First h)) m.
(** TAILQ_INSERT_HEAD *)
Definition TAILQ_INSERT_HEAD (h : head) (x : nat) (m : mem) : res mem :=
  let* f := get m (First h) in
  let* m := set (Next x) f m in
  let* m := (if f =? 0 then set_last h (Some (Next x)) m else set_prev f (Some (Next x)) m) in
  let* m := set (First h) x m in
  set_prev x (Some (First h)) m.
(** TAILQ_INSERT_TAIL *)
Definition TAILQ_INSERT_TAIL (h : head) (x : nat) (m : mem) : res mem :=
  let* m := set (Next x) 0 m in
  let* l := get_last m h in
  let* m := set_prev x l m in
  let* m := set_at l x m in
  set_last h (Some (Next x)) m.
(** TAILQ_REMOVE (without QUEUE_MACRO_DEBUG) *)
Definition TAILQ_REMOVE (h : head) (x : nat) (m : mem) : res mem :=
  let* n := get m (Next x) in
  let* p := get_prev m x in
  let* m := (if n =? 0 then set_last h p m else set_prev n p m) in
  set_at p n m.
(** TAILQ_FOREACH: the objects it visits *)
Fixpoint walk (fuel : nat) (x : nat) (m : mem) : res (list nat) :=
  match fuel with
  | 0 => Fuel
  | S f => if x =? 0 then OK [] else let* n := get m (Next x) in let* r := walk f n m in OK (x :: r)
  end.
Definition TAILQ_FOREACH (fuel : nat) (h : head) (m : mem) : res (list nat) := let* x := get m (First h) in walk fuel x m.

(** calloc(3) of an object, all zero; free(3) *)
Definition calloc (k : kind) (x : nat) (m : mem) : mem :=
  mkM (fun y => if x =? y then Some k else knd m y)
      (fun c => match c with First h => if fst h =? x then 0 else ptr m c | Next y => if x =? y then 0 else ptr m c end)
      (fun h => if fst h =? x then None else tql m h) (fun y => if x =? y then None else prv m y).
Definition free (x : nat) (m : mem) : res mem :=
  if alive m x then OK (mkM (fun y => if x =? y then None else knd m y) (ptr m) (tql m) (prv m)) else UB.

Fixpoint inits (hs : list head) (m : mem) : res mem :=
  match hs with [] => OK m | h :: r => let* m := TAILQ_INIT h m in inits r m end.
(** utils.c:464-490 [new_vhost], [new_location]; config.c:657-661; the others are
    only allocated, and what the message had in the list's own pointers is written over *)
Definition inner (k : kind) : list kind := match k with KHost => [KHaddr; KLoc; KAlias; KProxy] | KLoc => [KEnv] | _ => [] end.
Definition new (k : kind) (x : nat) (m : mem) : res mem := inits (map (pair x) (inner k)) (calloc k x m).

(** ** config.c *)
(** config.c:31-45 — [config_new] *)
Definition config_new : res mem := inits [(0, KFcgi); (0, KHost); (0, KPki); (0, KAddr)] blank.

(** a loop with TAILQ_FOREACH_SAFE that removes and frees each object; what it does
    before and after it removes it *)
Fixpoint purge_from (pre post : nat -> mem -> res mem) (h : head) (fuel : nat) (x : nat) (m : mem) : res mem :=
  match fuel with
  | 0 => Fuel
  | S f =>
    if x =? 0 then OK m else
    let* t := get m (Next x) in
    let* m := pre x m in
    let* m := TAILQ_REMOVE h x m in
    let* m := post x m in
    let* m := free x m in
    purge_from pre post h f t m
  end.
Definition purge (pre post : nat -> mem -> res mem) (fuel : nat) (h : head) (m : mem) : res mem :=
  let* x := get m (First h) in purge_from pre post h fuel x m.
Definition nothing (x : nat) (m : mem) : res mem := OK m.

(** config.c:96-110, :91-127, :78-148: the lists in the order they are purged *)
Definition purge_loc (fuel : nat) (x : nat) (m : mem) : res mem := purge nothing nothing fuel (x, KEnv) m.
Definition purge_host (fuel : nat) (x : nat) (m : mem) : res mem :=
  let* m := purge nothing nothing fuel (x, KHaddr) m in
  let* m := purge nothing (purge_loc fuel) fuel (x, KLoc) m in
  let* m := purge nothing nothing fuel (x, KAlias) m in
  purge nothing nothing fuel (x, KProxy) m.
(** memset(conf, 0, sizeof( *conf)) *)
Definition zero (m : mem) : mem :=
  mkM (knd m) (fun c => match c with First (0, _) => 0 | _ => ptr m c end) (fun h => match h with (0, _) => None | _ => tql m h end) (prv m).
(** config.c:58-162 — [config_purge]: conf->addrs is not initialised again *)
Definition config_purge (fuel : nat) (m : mem) : res mem :=
  let* m := purge nothing nothing fuel (0, KFcgi) m in
  let* m := purge (purge_host fuel) nothing fuel (0, KHost) m in
  let* m := purge nothing nothing fuel (0, KPki) m in
  let* m := purge nothing nothing fuel (0, KAddr) m in
  inits [(0, KFcgi); (0, KHost); (0, KPki)] (zero m).

(** ** what happens *)
(** an object is made and put on a list; a purge *)
Definition add (tail : bool) (h : head) (x : nat) (m : mem) : res mem :=
  let* m := new (snd h) x m in (if tail then TAILQ_INSERT_TAIL else TAILQ_INSERT_HEAD) h x m.
Inductive event := Add (tail : bool) (h : head) (x : nat) | Purge.
Definition step (fuel : nat) (m : mem) (e : event) : res mem :=
  match e with
  | Add tail h x => add tail h x m
  | Purge => config_purge fuel m
  end.
Fixpoint run (fuel : nat) (es : list event) (m : mem) : res mem :=
  match es with [] => OK m | e :: r => let* m := step fuel m e in run fuel r m end.

(** ** config.c:515-735 — [config_recv] in a server: the messages of a reload.  What
    is a message without an object is left out; [x]: what calloc(3) returned. *)
Inductive msg := MStart | MSock (x : nat) | MFcgi (x : nat) | MHost (x : nat) | MHaddr (x : nat) | MLoc (x : nat) | MEnv (x : nat) | MAlias (x : nat) | MProxy (x : nat).
(** the static variables h, l, p (0: NULL) *)
Record rst := mkR { r_m : mem; r_h : nat; r_l : nat; r_p : nat }.
(** [None]: fatalx *)
Definition recv (fuel : nat) (s : rst) (g : msg) : res (option rst) :=
  let here (o : nat) (k : kind) (x : nat) (f : mem -> rst) : res (option rst) :=
    if o =? 0 then OK None else let* m := add true (o, k) x (r_m s) in OK (Some (f m)) in
  let top (tail : bool) (k : kind) (x : nat) (f : mem -> rst) : res (option rst) := let* m := add tail (0, k) x (r_m s) in OK (Some (f m)) in
  match g with
  | MStart => let* m := config_purge fuel (r_m s) in OK (Some (mkR m 0 (r_l s) 0))
  | MSock x => top false KAddr x (fun m => mkR m (r_h s) (r_l s) (r_p s))
  | MFcgi x => top true KFcgi x (fun m => mkR m (r_h s) (r_l s) (r_p s))
  | MHost x => top true KHost x (fun m => mkR m x 0 0)
  | MHaddr x => here (r_h s) KHaddr x (fun m => mkR m (r_h s) (r_l s) (r_p s))
  | MLoc x => here (r_h s) KLoc x (fun m => mkR m (r_h s) x (r_p s))
  | MEnv x => here (r_l s) KEnv x (fun m => mkR m (r_h s) (r_l s) (r_p s))
  | MAlias x => here (r_h s) KAlias x (fun m => mkR m (r_h s) (r_l s) (r_p s))
  | MProxy x => here (r_h s) KProxy x (fun m => mkR m (r_h s) (r_l s) x)
  end.
Fixpoint recv_all (fuel : nat) (gs : list msg) (s : rst) : res (option rst) :=
  match gs with
  | [] => OK (Some s)
  | g :: r => let* o := recv fuel s g in match o with None => OK None | Some s => recv_all fuel r s end
  end.
