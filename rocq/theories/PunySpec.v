(** Independent specification of internationalised host names: RFC 3492
    (Punycode) decoding, section 6.2, over unbounded numbers and code points. *)
From Verif Require Import Base Utf8Spec.
Local Open Scope N_scope.

(** RFC 3492 section 5: digits a-z (any case) are 0..25, 0-9 are 26..35 *)
Definition rfc_digit (c : N) : option N :=
  if is_upper c then Some (c - 65) else if is_lower c then Some (c - 97)
  else if is_digit c then Some (c - 48 + 26) else None.

(** section 6.1: bias adaptation (the loop runs at most seven times below 2^31) *)
Fixpoint rfc_adapt_loop (fuel : nat) (d k : N) : N * N :=
  match fuel with
  | O => (d, k)
  | S f => if 455 <? d then rfc_adapt_loop f (d / 35) (k + 36) else (d, k)
  end.
Definition rfc_adapt (delta numpoints : N) (first : bool) : N :=
  let d := if first then delta / 700 else delta / 2 in
  let d := d + d / numpoints in
  let '(d, k) := rfc_adapt_loop 7 d 0 in
  k + (36 * d) / (d + 38).

(** one generalized variable-length integer, added to [i] *)
Fixpoint rfc_int (s : list N) (i w k bias : N) : option (N * list N) :=
  match s with
  | [] => None
  | c :: r =>
    match rfc_digit c with
    | None => None
    | Some d =>
      let t := if k <=? bias then 1 else if bias + 26 <=? k then 26 else k - bias in
      let i := i + d * w in
      if d <? t then Some (i, r) else rfc_int r i (w * (36 - t)) (k + 36) bias
    end
  end.

Definition scalarb (cp : N) : bool := (cp <? 55296) || ((57344 <=? cp) && (cp <=? 1114111)).

(** section 6.2; indexes of 2^31 or more (overflow, never needed for Unicode
    labels), code points that are not Unicode scalars or are ASCII are errors *)
Fixpoint rfc_loop (fuel : nat) (s out : list N) (n i bias : N) : option (list N) :=
  match fuel with
  | O => None
  | S f =>
    match s with
    | [] => Some out
    | _ =>
      match rfc_int s i 1 36 bias with
      | None => None
      | Some (i', r) =>
        let np := N.of_nat (length out) + 1 in
        let n' := n + i' / np in
        let at_ := N.to_nat (i' mod np) in
        if (i' <? 2^31) && scalarb n' then
          rfc_loop f r (firstn at_ out ++ n' :: skipn at_ out) n' (i' mod np + 1)
                   (rfc_adapt (i' - i) np (i =? 0))
        else None
      end
    end
  end.

(** the extended string [ext] (no '-') with the basic code points [basic] *)
Definition rfc_decode (basic ext : list N) : option (list N) :=
  rfc_loop (S (length ext)) ext basic 128 0 72.

(** label [l] stands for the code points [cps]: 45 is '-', 122 is 'z' *)
Inductive label_means : list N -> list N -> Prop :=
| lm_noext ext cps : ~ In 45 ext -> rfc_decode [] ext = Some cps ->
    label_means (s2b "xn--" ++ ext) cps
| lm_ext basic ext cps : basic <> [] -> Forall (fun c => 0 < c <= 122) basic -> ~ In 45 ext ->
    rfc_decode basic ext = Some cps -> label_means (s2b "xn--" ++ basic ++ 45 :: ext) cps.

Definition utf8s (cps : list N) : list N := flat_map utf8_encode cps.

(** what a label is decoded to *)
Inductive label_dec : list N -> list N -> Prop :=
| ld_plain l : firstn 4 l <> s2b "xn--" -> label_dec l l
| ld_puny l cps : label_means l cps -> label_dec l (utf8s cps).

(** labels joined with dots *)
Fixpoint join_dot (ws : list (list N)) : list N :=
  match ws with
  | [] => []
  | [w] => w
  | w :: ws' => w ++ 46 :: join_dot ws'
  end.

Definition label_ok (l : list N) : Prop := (length l < 64)%nat /\ ~ In 46 l.
