(** gemexp(1), independently of the code. *)
From Verif Require Import Base Compat Compat_Proofs Iri IriSpec IriObs Conf Mime MimeSpec Server ServerSpec Ge.
Local Open Scope N_scope.

(** ** What is exported *)

Definition absolute (p : list N) : Prop := exists r, p = 47 :: r.

(** the directory named on the command line, or the current one *)
Inductive exports (cwd : option (list N)) : list (list N) -> list N -> Prop :=
| xp_here d : cwd = Some d -> exports cwd [] d
| xp_abs p : absolute p -> exports cwd [p] p
| xp_rel p d : ~ absolute p -> cwd = Some d -> exports cwd [p] (d ++ s2b "/" ++ p).

(** the type of a file: by extension, else unknown *)
Definition typed (path ty : list N) : Prop :=
  (exists ext, has_ext path ext /\ In (ty, ext) default_mime) \/
  ((forall t ext, has_ext path ext -> ~ In (t, ext) default_mime) /\ ty = s2b "application/octet-stream").

(** where the path of a request leads below the directory *)
Definition place (i : comps) : list N := match unslash (c_path i) with [] => s2b "." | p => p end.
Definition as_directory (i : comps) : Prop := c_path i = [] \/ last (c_path i) 0 = 47.
Definition at_top (i : comps) : bool := match c_path i with [] => true | [47] => true | _ => false end.

(** what a request for [i] gets, [here] being what is found at its place *)
Inductive gets (i : comps) : node -> what -> Prop :=
| gt_missing : gets i NMissing (WReply 51 (s2b "not found"))
| gt_bad : gets i NBad (WReply 40 (s2b "internal server error"))
| gt_file reg content ty : typed (place i) ty -> gets i (NFile reg content) (WBody ty content)
| gt_slash look es : ~ as_directory i -> gets i (NDir look es) (WReply 30 (s2b "/" ++ c_path i ++ s2b "/"))
| gt_index look es content : as_directory i -> look (s2b "index.gmi") = NFile true content ->
    gets i (NDir look es) (WBody (s2b "text/gemini") content)
| gt_index_bad look es : as_directory i -> look (s2b "index.gmi") = NBad ->
    gets i (NDir look es) (WReply 40 (s2b "internal server error"))
| gt_list look es l : as_directory i -> (forall c, look (s2b "index.gmi") <> NFile true c) -> look (s2b "index.gmi") <> NBad ->
    shown (at_top i) es l -> gets i (NDir look (Some es)) (WList (c_path i) l)
| gt_list_bad look : as_directory i -> (forall c, look (s2b "index.gmi") <> NFile true c) -> look (s2b "index.gmi") <> NBad ->
    gets i (NDir look None) (WReply 40 (s2b "internal server error")).

(** ** The directory for certificates *)

(** -d; else $XDG_DATA_HOME/gemexp; else ~/.local/share/gemexp *)
Inductive kept_in (given xdg home : option (list N)) : list N -> Prop :=
| ki_given p : given = Some p -> kept_in given xdg home p
| ki_xdg x : given = None -> xdg = Some x -> kept_in given xdg home (x ++ s2b "/gemexp")
| ki_home h : given = None -> xdg = None -> home = Some h -> kept_in given xdg home (h ++ s2b "/.local/share/gemexp").

(** "/w1/w2/.../wn" *)
Definition word (w : list N) : Prop := w <> [] /\ ~ In 47 w.
Fixpoint path_of_words (ws : list (list N)) : list N := match ws with [] => [] | w :: r => 47 :: w ++ path_of_words r end.
(** the paths "/w1/w2", "/w1/w2/w3", ..., "/w1/.../wn" *)
Definition ancestors (ws : list (list N)) : list (list N) :=
  map (fun n => path_of_words (firstn n ws)) (seq 2 (length ws - 1)).
(** calls are made in turn until one fails *)
Inductive in_turn (ok : list N -> bool) : list (list N) -> list (list N) -> bool -> Prop :=
| it_done : in_turn ok [] [] true
| it_next p ps cs b : ok p = true -> in_turn ok ps cs b -> in_turn ok (p :: ps) (p :: cs) b
| it_fails p ps : ok p = false -> in_turn ok (p :: ps) [p] false.

(** ** Certificates *)

(** both files can be read *)
Definition usable (d : disk) (cert key : list N) (c k : list N) : Prop :=
  d cert = File true c /\ d key = File true k.
Definition unusable (d : disk) (cert key : list N) : Prop := forall c k, ~ usable d cert key c k.
(** [d'] is [d] except maybe for these two files *)
Definition elsewhere_same (cert key : list N) (d d' : disk) : Prop := forall p, p <> cert -> p <> key -> d' p = d p.

(** ** Options: the last of a kind wins *)
Inductive last_of {A B} (says : A -> B -> Prop) (dflt : B) : list A -> B -> Prop :=
| lo_none l : (forall x y, In x l -> ~ says x y) -> last_of says dflt l dflt
| lo_some a x b y : says x y -> (forall z w, In z b -> ~ says z w) -> last_of says dflt (a ++ x :: b) y.
(** options that end the program at once, with this status *)
Definition stops (o : opt) (code : N) : Prop :=
  match o with
  | OptHelp | OptOther => code = 1
  | OptV => code = 0
  | OptP s => code = 1 /\ ~ exists v, is_dec s v /\ (0 <= v <= 65535)%Z
  | _ => False
  end.
