(** Model of mime.c. *)
From Verif Require Import Base Conf.
Local Open Scope N_scope.

(** gmid.h:75-76 *)
Definition MEDIATYPE_NAMEMAX : nat := 128.
Definition MEDIATYPE_TYPEMAX : nat := 128.

(** gmid.h:253-257 [struct mime]: the entries in use and the capacity *)
Record mimetab := mkMime { m_t : list etm; m_cap : nat }.

(** mime.c:24-33 — [init_mime] *)
Definition init_mime : mimetab := mkMime [] 16.

(** mime.c:36-59 — [add_mime]: -1 is [false]; recallocarray(3) never fails
    here; cap * 1.5 is computed exactly for such sizes; writing past the
    capacity is [UB].  strlcpy's result is the length of its source. *)
Definition add_mime (m : mimetab) (mt ext : list N) : res (bool * mimetab) :=
  let m := if (length (m_t m) =? m_cap m)%nat then mkMime (m_t m) (m_cap m * 3 / 2) else m in
  if (m_cap m <=? length (m_t m))%nat then UB else
  if (MEDIATYPE_TYPEMAX <=? length mt)%nat then OK (false, m) else
  if (MEDIATYPE_NAMEMAX <=? length ext)%nat then OK (false, m) else
  OK (true, mkMime (m_t m ++ [(mt, ext)]) (m_cap m)).

(** mime.c:65-83 — the default mapping *)
Definition default_mime : list etm := [
  (s2b "application/pdf", s2b "pdf"); (s2b "image/gif", s2b "gif");
  (s2b "image/jpeg", s2b "jpg"); (s2b "image/jpeg", s2b "jpeg");
  (s2b "image/png", s2b "png"); (s2b "image/svg+xml", s2b "svg");
  (s2b "text/gemini", s2b "gemini"); (s2b "text/gemini", s2b "gmi");
  (s2b "text/markdown", s2b "markdown"); (s2b "text/markdown", s2b "md");
  (s2b "text/plain", s2b "txt"); (s2b "text/x-patch", s2b "diff");
  (s2b "text/x-patch", s2b "patch"); (s2b "text/xml", s2b "xml")].

(** mime.c:89-92 *)
Fixpoint add_mimes (m : mimetab) (l : list etm) : res (bool * mimetab) :=
  match l with
  | [] => OK (true, m)
  | (mt, ext) :: r => let* (ok, m) := add_mime m mt ext in
                      if ok then add_mimes m r else OK (false, m)
  end.

(** mime.c:62-97 — [load_default_mime] *)
Definition load_default_mime (m : mimetab) : res (bool * mimetab) :=
  match m_t m with [] => add_mimes m default_mime | _ => OK (true, m) end.

(** strcmp(3): unsigned char comparison, a proper prefix is smaller *)
Fixpoint strcmp (a b : list N) : comparison :=
  match a, b with
  | [], [] => Eq
  | [], _ => Lt
  | _, [] => Gt
  | x :: a', y :: b' => match x ?= y with Eq => strcmp a' b' | c => c end
  end.

(** mime.c:105-110 — loop of [path_ext] from [end]: what follows the last '.'
    (46) met before a '/' (47) or the first character *)
Fixpoint path_ext_loop (fuel : nat) (path : list N) (e : nat) : res (option (list N)) :=
  match fuel with
  | O => Fuel
  | S f =>
    if (e =? 0)%nat then OK None else
    let* c := rd path e in
    if c =? 46 then OK (Some (skipn (S e) path))
    else if c =? 47 then OK None
    else path_ext_loop f path (e - 1)
  end.

(** mime.c:99-113 — [path_ext]; on the empty string [end] points before it *)
Definition path_ext (path : list N) : res (option (list N)) :=
  match path with [] => UB | _ => path_ext_loop (length path) path (length path - 1) end.

(** bsearch(3) as mime.c:149-150 calls it: halving on [lo, hi) *)
Fixpoint bsearch (fuel : nat) (ext : list N) (t : list etm) (lo hi : nat) : res (option etm) :=
  match fuel with
  | O => Fuel
  | S f =>
    if (hi <=? lo)%nat then OK None else
    let mid := ((lo + hi) / 2)%nat in
    match nth_error t mid with
    | None => UB
    | Some e => match strcmp ext (snd e) with
                | Eq => OK (Some e)
                | Lt => bsearch f ext t lo mid
                | Gt => bsearch f ext t (S mid) hi
                end
    end
  end.

(** mime.c:138-156 — [mime] *)
Definition mime (fnm : list N -> list N -> bool) (t : list etm) (host : option vhost) (path : list N) : res (list N) :=
  let def := vhost_default_mime fnm host (Some path) in
  let* ext := path_ext path in
  match ext with
  | None => OK def
  | Some ext =>
    let* r := bsearch (S (length t)) ext t 0 (length t) in
    match r with
    | Some e => OK (fst e)
    | None => if leqb ext (s2b "gmi") || leqb ext (s2b "gemini") then OK (s2b "text/gemini") else OK def
    end
  end.
