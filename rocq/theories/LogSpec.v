(** What gmid.conf(5) says of the lines of the access log (`log style'). *)
From Verif Require Import Base IriSpec Fmt VisSpec Log.
Local Open Scope N_scope.

Fixpoint words (l : list (list N)) : list N :=
  match l with [] => [] | [w] => w | w :: r => w ++ 32 :: words r end.
Definition quoted (s : list N) : list N := 34 :: s ++ [34].
Definition bracketed (s : list N) : list N := 91 :: s ++ [93].

(** The four styles; [host] is the matching host, [uri] the request URI, [cn]
    the Common Name of the client certificate as shown or a dash.  The sizes of
    the request and of the response are parameters. *)
Definition line_of (fmt : log_format) (remote port stamp rfc host cn uri code meta insize outsize : list N) : list N :=
  match fmt with
  | LF_COMMON => words [host; remote; [45]; cn; stamp; quoted uri; code; outsize]
  | LF_COMBINED => words [remote; [45]; cn; bracketed stamp; quoted uri; code; outsize; quoted [45]; quoted []]
  | LF_CONDENSED => words [rfc; remote; cn; host; uri; insize; outsize; code; meta]
  | LF_LEGACY => words [remote ++ 58 :: port; s2b "GET"; uri; code; meta]
  end.

(** the URI of a request: scheme, "://", host, the path with one leading slash,
    the query *)
Definition uri_of (host : list N) (i : comps) : list N :=
  c_scheme i ++ s2b "://" ++ host ++
  (match c_path i with 47 :: _ => c_path i | p => 47 :: p end) ++
  (match c_query i with [] => [] | q => 63 :: q end).

(** one component of the subject of a certificate, written /KEY=value/... *)
Definition subject_is (first : bool) (subj name : list N) : Prop :=
  exists before after, subj = before ++ s2b "/CN=" ++ name ++ after /\ ~ In 47 name /\
    (after = [] \/ exists r, after = 47 :: r) /\ (first = true -> before = []).

(** [s] is one line: its only newline is the last byte *)
Definition is_line (s : list N) : Prop := exists l, s = l ++ [10] /\ ~ In 10 l.
