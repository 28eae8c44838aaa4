(** Extensions and sorted tables. *)
From Verif Require Import Base Conf Mime.
From Coq Require Import Permutation Sorted.
Local Open Scope N_scope.

(** [path] has extension [ext]: it is non-empty text, a dot, and [ext], which
    contains neither '.' nor '/'.  (The dot is not the first character.) *)
Definition has_ext (path ext : list N) : Prop :=
  exists stem, stem <> [] /\ path = stem ++ 46 :: ext /\ ~ In 46 ext /\ ~ In 47 ext.

Definition before (a b : etm) : Prop := strcmp (snd a) (snd b) <> Gt.

(** what qsort(3) with mime_comp leaves in the table: any sorted permutation *)
Definition sort_mime (t t' : list etm) : Prop := Permutation t t' /\ StronglySorted before t'.
