(** The FastCGI 1.0 wire format as an application decodes it (fastcgi.com
    specification, sections 3.3, 3.4 and 8), independently of gmid. *)
From Verif Require Import Base.
Local Open Scope N_scope.

(** a record: type, request id, content *)
Record frec := mkRec { r_type : N; r_id : N; r_content : list N }.

(** split a byte stream into records: version 1, type, id (2), length (2),
    padding length, reserved, content, padding *)
Fixpoint records (fuel : nat) (s : list N) : option (list frec) :=
  match s with
  | [] => Some []
  | v :: t :: i1 :: i0 :: l1 :: l0 :: p :: _ :: r =>
    match fuel with
    | O => None
    | S f =>
      let n := N.to_nat (256 * l1 + l0) in
      if (v =? 1) && (n + N.to_nat p <=? length r)%nat then
        match records f (skipn (n + N.to_nat p) r) with
        | Some rs => Some (mkRec t (256 * i1 + i0) (firstn n r) :: rs)
        | None => None
        end
      else None
    end
  | _ => None
  end.

(** a length: one byte below 128, or four bytes with the top bit set *)
Definition pair_len (s : list N) : option (nat * list N) :=
  match s with
  | a :: r =>
    if a <? 128 then Some (N.to_nat a, r)
    else match r with
         | b :: c :: d :: r' => Some (N.to_nat ((a - 128) * 16777216 + b * 65536 + c * 256 + d), r')
         | _ => None
         end
  | [] => None
  end.

Fixpoint pairs (fuel : nat) (s : list N) : option (list (list N * list N)) :=
  match s with
  | [] => Some []
  | _ =>
    match fuel with
    | O => None
    | S f =>
      match pair_len s with
      | Some (n, r) =>
        match pair_len r with
        | Some (v, r) =>
          if (n + v <=? length r)%nat then
            match pairs f (skipn (n + v) r) with
            | Some ps => Some ((firstn n r, firstn v (skipn n r)) :: ps)
            | None => None
            end
          else None
        | None => None
        end
      | None => None
      end
    end
  end.

(** a stream of one type: contents of its records up to the first empty one,
    and what follows *)
Fixpoint stream (type : N) (rs : list frec) : option (list N * list frec) :=
  match rs with
  | r :: rest =>
    if (r_type r =? type) && (r_id r =? 1) then
      match r_content r with
      | [] => Some ([], rest)
      | c => match stream type rest with Some (s, rest') => Some (c ++ s, rest') | None => None end
      end
    else None
  | [] => None
  end.

(** what the application understands: a responder request that keeps the
    connection, its parameters, and an empty standard input *)
Definition app_decode (bytes : list N) : option (list (list N * list N)) :=
  match records (length bytes) bytes with
  | Some (b :: rs) =>
    if (r_type b =? 1) && (r_id b =? 1) && leqb (r_content b) [0; 1; 1; 0; 0; 0; 0; 0] then
      match stream 4 rs with
      | Some (s, rest) =>
        match stream 5 rest with
        | Some ([], []) => pairs (length s) s
        | _ => None
        end
      | None => None
      end
    else None
  | _ => None
  end.
