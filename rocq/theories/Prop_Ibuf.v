(** C84: a message buffer is a sequence of bytes that is written at its end and read
    from a mark, whatever is done with it in whatever order; nothing outside of its
    memory is touched. *)
From Verif Require Import Base Ibuf.
Local Open Scope N_scope.

(** ** what it should be *)
(** all bytes, how many of them were read, how many there can be; [a_grow]: it is not
    about memory of someone else; [a_none]: no memory was ever needed *)
Record abuf := mkA { a_all : list N; a_cur : N; a_max : N; a_grow : bool; a_none : bool }.
Definition rest (a : abuf) : N := len (a_all a) - a_cur a.
Definition fits (a : abuf) (n : N) : bool := a_grow a && (len (a_all a) + n <=? a_max a) && negb (a_none a && (n =? 0)).
Definition push (a : abuf) (d : list N) : ans * abuf := if fits a (len d) then (Done, mkA (a_all a ++ d) (a_cur a) (a_max a) (a_grow a) false) else (Failed, a).
Definition put (a : abuf) (pos : N) (d : list N) : ans * abuf :=
  if (pos + len d <=? rest a) && negb (a_none a) then
    let o := N.to_nat (a_cur a + pos) in (Done, mkA (firstn o (a_all a) ++ d ++ skipn (o + length d) (a_all a)) (a_cur a) (a_max a) (a_grow a) (a_none a))
  else (Failed, a).
Definition pull (a : abuf) (n : N) (f : list N -> ans) : ans * abuf :=
  if n <=? rest a then (f (firstn (N.to_nat n) (skipn (N.to_nat (a_cur a)) (a_all a))), mkA (a_all a) (a_cur a + n) (a_max a) (a_grow a) (a_none a)) else (Failed, a).
Definition fits_width (w : nat) (v : N) : bool := Nat.eqb w 8 || (v <? 256 ^ N.of_nat w).
Definition spec (a : abuf) (o : op) : ans * abuf :=
  match o with
  | Add d => push a d
  | AddZero n => push a (zeros n)
  | SetAt pos d => put a pos d
  | Truncate n =>
    if n <=? rest a then (Done, mkA (firstn (N.to_nat (a_cur a + n)) (a_all a)) (a_cur a) (a_max a) (a_grow a) (a_none a))
    else push a (zeros (n - rest a))
  | Rewind => (Done, mkA (a_all a) 0 (a_max a) (a_grow a) (a_none a))
  | Get n => pull a n Bytes
  | GetString n => pull a n (fun l => Bytes (until_nul l))
  | Skip n => pull a n (fun _ => Done)
  | Size => (Number (rest a), a)
  | Left => (Number (if a_grow a then a_max a - len (a_all a) else 0), a)
  | AddN w v => if fits_width w v then push a (be w v) else (Failed, a)
  | SetN w pos v => if fits_width w v then put a pos (be w v) else (Failed, a)
  | GetN w => pull a (N.of_nat w) (fun l => Number (unbe 0 l))
  end.
Fixpoint spec_run (a : abuf) (os : list op) : list ans := match os with [] => [] | o :: r => let '(x, a) := spec a o in x :: spec_run a r end.

(** ** proofs *)
Record R (b : ibuf) (a : abuf) : Prop := mkR {
  r_max : max b = a_max a; r_wp : wpos b = len (a_all a); r_rp : rpos b = a_cur a; r_grow : stack b = negb (a_grow a);
  r_rw : rpos b <= wpos b; r_ws : wpos b <= size b; r_sm : stack b = false -> size b <= max b; r_M : max b <= SIZE_MAX; r_S : size b <= SIZE_MAX;
  r_blk : match blk b with None => a_none a = true /\ size b = 0 | Some l => a_none a = false /\ len l = size b /\ firstn (N.to_nat (wpos b)) l = a_all a end }.

Lemma SM : SIZE_MAX = 2 ^ 64 - 1. Proof. reflexivity. Qed.
Lemma addz_ok a b : a + b <= SIZE_MAX -> addz a b = a + b.
Proof. intros H. unfold addz. apply N.mod_small. rewrite SM in H. change (2 ^ 64) with 18446744073709551616 in *. lia. Qed.
Lemma subz_ok a b : b <= a -> subz a b = a - b.
Proof. intros H. unfold subz. apply N.leb_le in H. rewrite H. reflexivity. Qed.
Lemma len_app a b : len (a ++ b) = len a + len b.
Proof. unfold len. rewrite app_length. lia. Qed.
Lemma len_zeros n : len (zeros n) = n.
Proof. unfold len, zeros. rewrite repeat_length. lia. Qed.
Lemma len_nat l : N.to_nat (len l) = length l.
Proof. unfold len. lia. Qed.

Lemma size_eq b a : R b a -> ibuf_size b = rest a.
Proof. intros H. unfold ibuf_size, rest. rewrite subz_ok by apply (r_rw _ _ H). rewrite (r_wp _ _ H), (r_rp _ _ H). reflexivity. Qed.

(** writing at the end *)
Lemma wr_len b off d l : wr b off d = OK (Some l) -> match b with Some l0 => len l = len l0 | None => False end.
Proof.
  unfold wr. destruct b as [l0|]; [|destruct ((off =? 0) && (len d =? 0)); discriminate]. destruct (N.leb_spec (off + len d) (len l0)) as [L|L]; [|discriminate]. intros E. injection E as <-.
  unfold len in *. rewrite !app_length, firstn_length, skipn_length. lia.
Qed.

(** what ibuf_reserve leaves: the room is there *)
Lemma reserve_ok b a n : R b a -> exists o b', ibuf_reserve b n = OK (o, b') /\
  if fits a n then o = Some (wpos b) /\ wpos b' = wpos b + n /\ max b' = max b /\ rpos b' = rpos b /\ stack b' = stack b /\ wpos b' <= size b' /\ size b' <= max b /\
    (exists l, blk b' = Some l /\ len l = size b' /\ firstn (N.to_nat (wpos b)) l = a_all a)
  else o = None /\ (b' = b \/ (n = 0 /\ b' = b)).
Proof.
  intros H. unfold ibuf_reserve. pose proof (r_ws _ _ H) as WS. pose proof (r_S _ _ H) as SS. pose proof (r_M _ _ H) as MM. pose proof (r_rw _ _ H) as RW.
  rewrite subz_ok by lia. unfold fits. rewrite <- (r_wp _ _ H), <- (r_max _ _ H).
  assert (G : a_grow a = negb (stack b)) by (rewrite (r_grow _ _ H), negb_involutive; reflexivity). rewrite G.
  destruct (N.ltb_spec (SIZE_MAX - wpos b) n) as [O|O].
  { eexists _, _. split; [reflexivity|]. destruct (N.leb_spec (wpos b + n) (max b)); [lia|]. rewrite andb_false_r. cbn [andb]. auto. }
  destruct (stack b) eqn:ST; cbn [negb andb]; [eexists _, _; split; [reflexivity|]; auto|]. pose proof (r_sm _ _ H ST) as SMX.
  rewrite addz_ok by lia. pose proof (r_blk _ _ H) as BK.
  destruct (N.ltb_spec (size b) (wpos b + n)) as [GR|GR].
  - destruct (N.ltb_spec (max b) (wpos b + n)) as [TM|TM]; cbn [bind].
    + eexists _, _. split; [reflexivity|]. destruct (N.leb_spec (wpos b + n) (max b)); [lia|]. cbn [andb]. auto.
    + destruct (N.leb_spec (wpos b + n) (max b)) as [_|]; [|lia]. rewrite subz_ok by lia.
      assert (NZ : n =? 0 = false) by (apply N.eqb_neq; lia). rewrite NZ, andb_false_r. cbn [negb].
      set (old := match blk b with Some l => firstn (N.to_nat (wpos b + n)) l | None => [] end).
      assert (OL : len old = size b). { unfold old. destruct (blk b) as [l|]; [|destruct BK as (_ & ->); reflexivity]. destruct BK as (_ & L & _). rewrite firstn_all2; [exact L|]. unfold len in L. lia. }
      assert (LR : len (old ++ repeat 170 (N.to_nat (wpos b + n) - length old)) = wpos b + n). { unfold len in *. rewrite app_length, repeat_length. lia. }
      unfold realloc. fold old. unfold wr. rewrite LR, len_zeros. destruct (N.leb_spec (size b + (wpos b + n - size b)) (wpos b + n)) as [_|]; [|lia]. cbn [bind blk at_off wpos size max rpos stack].
      eexists _, _. split; [reflexivity|]. cbn [at_off blk wpos size max rpos stack]. rewrite addz_ok by lia. repeat (split; [first [reflexivity|lia|exact ST]|]).
      eexists. split; [reflexivity|]. split.
      * unfold len in *. rewrite !app_length, firstn_length, skipn_length, app_length, !repeat_length. unfold zeros. rewrite repeat_length. lia.
      * assert (FO : firstn (N.to_nat (size b)) (old ++ repeat 170 (N.to_nat (wpos b + n) - length old)) = old).
        { rewrite <- OL, len_nat. rewrite firstn_app, Nat.sub_diag, firstn_all, firstn_O, app_nil_r. reflexivity. }
        rewrite FO. rewrite firstn_app. assert (N.to_nat (wpos b) - length old = 0)%nat as -> by (unfold len in OL; lia). rewrite firstn_O, app_nil_r.
        unfold old. destruct (blk b) as [l|].
        -- destruct BK as (_ & L & F). rewrite firstn_firstn. assert (Nat.min (N.to_nat (wpos b)) (N.to_nat (wpos b + n)) = N.to_nat (wpos b)) as -> by lia. exact F.
        -- destruct BK as (_ & S0). assert (a_all a = []) as ->. { pose proof (r_wp _ _ H). unfold len in *. destruct (a_all a); [reflexivity|cbn in *; lia]. } destruct (N.to_nat (wpos b)); reflexivity.
  - cbn [bind]. destruct (N.leb_spec (wpos b + n) (max b)) as [_|]; [|lia]. rewrite addz_ok by lia. unfold at_off. destruct (blk b) as [l|] eqn:EB.
    + destruct BK as (-> & L & F). cbn [andb negb]. eexists _, _. split; [reflexivity|]. cbn [blk wpos size max rpos stack]. repeat (split; [first [reflexivity|lia|exact ST]|]). exists l. auto.
    + destruct BK as (-> & S0). assert (N0 : n = 0) by lia. subst n. cbn [andb negb N.eqb]. eexists _, _. split; [reflexivity|]. split; [reflexivity|]. left. rewrite N.add_0_r. destruct b. cbn in *. congruence.
Qed.

(** writing in what was reserved *)
Lemma push_ok b a d : R b a -> exists b', (let* r := ibuf_reserve b (len d) in match r with (None, b) => OK (false, b) | (Some o, b) => let* l := wr (blk b) o d in OK (true, set_blk b l) end) =
  OK (fits a (len d), b') /\ R b' (snd (push a d)).
Proof.
  intros H. destruct (reserve_ok b a (len d) H) as (o & b1 & -> & Q). cbn [bind]. unfold push. destruct (fits a (len d)) eqn:FT.
  - destruct Q as (-> & W & MX & RP & ST & WS & SX & l & BL & LL & F). rewrite BL. unfold wr. destruct (N.leb_spec (wpos b + len d) (len l)) as [L|]; [|lia]. cbn [bind]. eexists. split; [reflexivity|].
    pose proof (r_rw _ _ H). pose proof (r_M _ _ H). constructor; cbn [snd set_blk blk size max wpos rpos stack a_all a_cur a_max a_grow a_none].
    + rewrite MX. apply (r_max _ _ H).
    + rewrite len_app, <- (r_wp _ _ H). exact W.
    + rewrite RP. apply (r_rp _ _ H).
    + rewrite ST. apply (r_grow _ _ H).
    + lia.
    + exact WS.
    + intros _. lia.
    + lia.
    + lia.
    + split; [reflexivity|]. split.
      * unfold len in *. rewrite !app_length, firstn_length, skipn_length. lia.
      * rewrite W, app_assoc, firstn_app. rewrite F. assert (LA : length (a_all a) = N.to_nat (wpos b)) by (rewrite (r_wp _ _ H), len_nat; reflexivity).
        rewrite firstn_all2 by (rewrite app_length; unfold len; lia). rewrite app_length. assert (N.to_nat (wpos b + len d) - (length (a_all a) + length d) = 0)%nat as -> by (unfold len; lia). rewrite firstn_O, app_nil_r. reflexivity.
  - destruct Q as (-> & Q). exists b1. split; [reflexivity|]. cbn [snd]. assert (b1 = b) as -> by tauto. exact H.
Qed.
Lemma add_ok b a d : R b a -> exists r, ibuf_add b d = OK r /\ fst (yes r) = fst (push a d) /\ R (snd (yes r)) (snd (push a d)).
Proof.
  intros H. destruct (push_ok b a d H) as (b' & E & Q). exists (fits a (len d), b'). split; [exact E|]. split; [|exact Q]. unfold yes, push. cbn [fst]. destruct (fits a (len d)); reflexivity.
Qed.
Lemma add_zero_ok b a n : R b a -> exists r, ibuf_add_zero b n = OK r /\ fst (yes r) = fst (push a (zeros n)) /\ R (snd (yes r)) (snd (push a (zeros n))).
Proof.
  intros H. destruct (push_ok b a (zeros n) H) as (b' & E & Q). rewrite len_zeros in E. exists (fits a n, b'). split; [exact E|]. split; [|exact Q]. unfold yes, push. rewrite len_zeros. cbn [fst]. destruct (fits a n); reflexivity.
Qed.

Lemma put_ok b a pos d : R b a -> exists r, ibuf_set b pos d = OK r /\ fst (yes r) = fst (put a pos d) /\ R (snd (yes r)) (snd (put a pos d)).
Proof.
  intros H. unfold ibuf_set, ibuf_seek. rewrite (size_eq _ _ H). pose proof (r_ws _ _ H) as WS. pose proof (r_S _ _ H) as SS. pose proof (r_M _ _ H) as MM. pose proof (r_rw _ _ H) as RW.
  assert (RE : rest a = wpos b - rpos b) by (unfold rest; rewrite (r_wp _ _ H), (r_rp _ _ H); reflexivity). unfold put. rewrite <- (r_rp _ _ H).
  destruct (N.ltb_spec (rest a) pos) as [A|A]; cbn [orb].
  { destruct (N.leb_spec (pos + len d) (rest a)); [lia|]. eexists. split; [reflexivity|]. cbn. auto. }
  rewrite subz_ok by lia. destruct (N.ltb_spec (SIZE_MAX - pos) (len d)) as [B|B]; cbn [orb].
  { destruct (N.leb_spec (pos + len d) (rest a)); [lia|]. eexists. split; [reflexivity|]. cbn. auto. }
  rewrite (addz_ok pos) by lia. destruct (N.ltb_spec (rest a) (pos + len d)) as [C|C]; cbn [orb].
  { destruct (N.leb_spec (pos + len d) (rest a)); [lia|]. eexists. split; [reflexivity|]. cbn. auto. }
  destruct (N.leb_spec (pos + len d) (rest a)) as [_|]; [|lia]. cbn [andb]. rewrite addz_ok by lia. unfold at_off. pose proof (r_blk _ _ H) as BK. destruct (blk b) as [l|] eqn:EB.
  - destruct BK as (-> & L & F). cbn [negb]. unfold wr. destruct (N.leb_spec (rpos b + pos + len d) (len l)) as [_|]; [|lia]. cbn [bind]. eexists. split; [reflexivity|]. split; [reflexivity|].
    cbn [yes snd fst]. set (o := N.to_nat (rpos b + pos)).
    assert (LA : length (a_all a) = N.to_nat (wpos b)) by (rewrite (r_wp _ _ H), len_nat; reflexivity). assert (LD : N.to_nat (len d) = length d) by apply len_nat. assert (LL : length l = N.to_nat (size b)) by (rewrite <- L, len_nat; reflexivity).
    constructor; cbn [set_blk blk size max wpos rpos stack a_all a_cur a_max a_grow a_none]; try apply H.
    + rewrite (r_wp _ _ H). unfold len. rewrite !app_length, firstn_length, skipn_length. unfold o. lia.
    + reflexivity.
    + split; [reflexivity|]. split.
      * unfold len in *. rewrite !app_length, firstn_length, skipn_length. lia.
      * replace (N.to_nat (rpos b + pos + len d)) with (o + length d)%nat by (unfold o; lia). rewrite firstn_app, firstn_firstn, firstn_length, LL. replace (Nat.min (N.to_nat (wpos b)) o) with o by (unfold o; lia).
        rewrite firstn_app. replace (Nat.min o (N.to_nat (size b))) with o by (unfold o; lia).
        rewrite (firstn_all2 d) by (unfold o; lia). replace (N.to_nat (wpos b) - o - length d)%nat with (N.to_nat (wpos b) - (o + length d))%nat by lia. rewrite <- skipn_firstn_comm, F. f_equal.
        rewrite <- F. rewrite firstn_firstn. f_equal. unfold o. lia.
  - destruct BK as (-> & S0). cbn [negb]. eexists. split; [reflexivity|]. cbn. auto.
Qed.

(** reading *)
Lemma rd_ok b a n : R b a -> n <= rest a -> rd (blk b) (rpos b) n = OK (firstn (N.to_nat n) (skipn (N.to_nat (a_cur a)) (a_all a))).
Proof.
  intros H L. pose proof (r_ws _ _ H) as WS. pose proof (r_rw _ _ H) as RW. assert (RE : rest a = wpos b - rpos b) by (unfold rest; rewrite (r_wp _ _ H), (r_rp _ _ H); reflexivity). pose proof (r_blk _ _ H) as BK. unfold rd. destruct (blk b) as [l|].
  - destruct BK as (_ & LL & F). destruct (N.leb_spec (rpos b + n) (len l)) as [_|]; [|lia]. f_equal. rewrite <- F, <- (r_rp _ _ H). rewrite skipn_firstn_comm, firstn_firstn. f_equal. lia.
  - destruct BK as (_ & S0). assert (rpos b = 0) as -> by lia. assert (n = 0) as -> by lia. reflexivity.
Qed.
Lemma advance_ok b a n : R b a -> n <= rest a -> R (advance b n) (mkA (a_all a) (a_cur a + n) (a_max a) (a_grow a) (a_none a)).
Proof.
  intros H L. pose proof (r_ws _ _ H) as WS. pose proof (r_rw _ _ H) as RW. pose proof (r_S _ _ H) as SS. assert (RE : rest a = wpos b - rpos b) by (unfold rest; rewrite (r_wp _ _ H), (r_rp _ _ H); reflexivity).
  assert (AD : addz (rpos b) n = rpos b + n) by (apply addz_ok; lia). constructor; cbn [advance blk size max wpos rpos stack a_all a_cur a_max a_grow a_none]; try apply H; rewrite AD; [rewrite (r_rp _ _ H); reflexivity|lia].
Qed.
Lemma get_ok b a n : R b a -> exists r, ibuf_get b n = OK r /\ fst (bytes r) = fst (pull a n Bytes) /\ R (snd r) (snd (pull a n Bytes)) /\
  fst r = (if n <=? rest a then Some (firstn (N.to_nat n) (skipn (N.to_nat (a_cur a)) (a_all a))) else None).
Proof.
  intros H. unfold ibuf_get, pull. rewrite (size_eq _ _ H). destruct (N.ltb_spec (rest a) n) as [A|A]; destruct (N.leb_spec n (rest a)) as [B|B]; try lia.
  - eexists. split; [reflexivity|]. cbn. auto.
  - rewrite (rd_ok b a n H B). cbn [bind]. eexists. split; [reflexivity|]. cbn [fst snd bytes]. split; [reflexivity|]. split; [apply advance_ok; assumption|reflexivity].
Qed.

Lemma step_ok b a o : R b a -> exists b', do_op b o = OK (fst (spec a o), b') /\ R b' (snd (spec a o)).
Proof.
  intros H. pose proof (r_ws _ _ H) as WS. pose proof (r_rw _ _ H) as RW. pose proof (r_S _ _ H) as SS. assert (RE : rest a = wpos b - rpos b) by (unfold rest; rewrite (r_wp _ _ H), (r_rp _ _ H); reflexivity).
  destruct o as [d|n|pos d|n| |n|n|n| | |w v|w pos v|w]; cbn [do_op spec].
  - destruct (add_ok b a d H) as (r & -> & E & Q). cbn [bind]. exists (snd (yes r)). rewrite <- E. split; [destruct (yes r); reflexivity|exact Q].
  - destruct (add_zero_ok b a n H) as (r & -> & E & Q). cbn [bind]. exists (snd (yes r)). rewrite <- E. split; [destruct (yes r); reflexivity|exact Q].
  - destruct (put_ok b a pos d H) as (r & -> & E & Q). cbn [bind]. exists (snd (yes r)). rewrite <- E. split; [destruct (yes r); reflexivity|exact Q].
  - unfold ibuf_truncate. rewrite (size_eq _ _ H). destruct (N.leb_spec n (rest a)) as [A|A]; cbn [bind yes fst snd].
    + eexists. split; [reflexivity|]. assert (AD : addz (rpos b) n = rpos b + n) by (apply addz_ok; lia).
      assert (LA : length (a_all a) = N.to_nat (wpos b)) by (rewrite (r_wp _ _ H), len_nat; reflexivity).
      rewrite AD. constructor; cbn [snd blk size max wpos rpos stack a_all a_cur a_max a_grow a_none]; try apply H.
      * unfold len. rewrite firstn_length, LA, <- (r_rp _ _ H). lia.
      * lia.
      * lia.
      * pose proof (r_blk _ _ H) as BK. destruct (blk b) as [l|]; [|exact BK]. destruct BK as (N0 & LL & F). split; [exact N0|]. split; [exact LL|]. rewrite <- F, firstn_firstn, <- (r_rp _ _ H). f_equal. lia.
    + destruct (stack b) eqn:ST; cbn [bind yes fst snd].
      * assert (G : a_grow a = false) by (pose proof (r_grow _ _ H) as G0; rewrite ST in G0; destruct (a_grow a); [discriminate G0|reflexivity]). unfold push, fits. rewrite G. cbn [andb fst snd]. eexists. split; [reflexivity|exact H].
      * rewrite subz_ok by lia. destruct (add_zero_ok b a (n - rest a) H) as (r & -> & E & Q). cbn [bind]. exists (snd (yes r)). rewrite <- E. split; [destruct (yes r); reflexivity|exact Q].
  - eexists. split; [reflexivity|]. constructor; cbn [ibuf_rewind blk size max wpos rpos stack snd a_all a_cur a_max a_grow a_none]; try apply H; [reflexivity|lia].
  - destruct (get_ok b a n H) as (r & -> & E & Q & _). cbn [bind]. exists (snd r). unfold bytes in *. cbn [fst snd] in *. rewrite <- E. auto.
  - unfold ibuf_get_string, pull. rewrite (size_eq _ _ H). destruct (N.ltb_spec (rest a) n) as [A|A]; destruct (N.leb_spec n (rest a)) as [B|B]; try lia.
    + eexists. split; [reflexivity|exact H].
    + rewrite (rd_ok b a n H B). cbn [bind]. eexists. split; [reflexivity|]. apply advance_ok; assumption.
  - unfold ibuf_skip, pull. rewrite (size_eq _ _ H). destruct (N.ltb_spec (rest a) n) as [A|A]; destruct (N.leb_spec n (rest a)) as [B|B]; try lia.
    + eexists. split; [reflexivity|exact H].
    + eexists. split; [reflexivity|]. apply advance_ok; assumption.
  - rewrite (size_eq _ _ H). eexists. split; [reflexivity|exact H].
  - unfold ibuf_left. rewrite (r_grow _ _ H). destruct (a_grow a) eqn:G; cbn [negb].
    + rewrite subz_ok. 2:{ pose proof (r_sm _ _ H). rewrite (r_grow _ _ H), G in *. cbn in *. assert (size b <= max b) by auto. lia. }
      rewrite (r_max _ _ H), (r_wp _ _ H). eexists. split; [reflexivity|exact H].
    + eexists. split; [reflexivity|exact H].
  - unfold ibuf_add_n, fits_width. destruct (Nat.eqb w 8) eqn:W; cbn [negb andb orb].
    + destruct (add_ok b a (be w v) H) as (r & -> & E & Q). cbn [bind]. exists (snd (yes r)). rewrite <- E. split; [destruct (yes r); reflexivity|exact Q].
    + assert (256 ^ N.of_nat w <> 0) by (apply N.pow_nonzero; discriminate). destruct (N.ltb_spec (256 ^ N.of_nat w - 1) v) as [A|A]; destruct (N.ltb_spec v (256 ^ N.of_nat w)) as [B|B]; try lia.
      * cbn. eexists. split; [reflexivity|exact H].
      * destruct (add_ok b a (be w v) H) as (r & -> & E & Q). cbn [bind]. exists (snd (yes r)). rewrite <- E. split; [destruct (yes r); reflexivity|exact Q].
  - unfold ibuf_set_n, fits_width. destruct (Nat.eqb w 8) eqn:W; cbn [negb andb orb].
    + destruct (put_ok b a pos (be w v) H) as (r & -> & E & Q). cbn [bind]. exists (snd (yes r)). rewrite <- E. split; [destruct (yes r); reflexivity|exact Q].
    + assert (256 ^ N.of_nat w <> 0) by (apply N.pow_nonzero; discriminate). destruct (N.ltb_spec (256 ^ N.of_nat w - 1) v) as [A|A]; destruct (N.ltb_spec v (256 ^ N.of_nat w)) as [B|B]; try lia.
      * cbn. eexists. split; [reflexivity|exact H].
      * destruct (put_ok b a pos (be w v) H) as (r & -> & E & Q). cbn [bind]. exists (snd (yes r)). rewrite <- E. split; [destruct (yes r); reflexivity|exact Q].
  - unfold ibuf_get_n. destruct (get_ok b a (N.of_nat w) H) as ([o b'] & -> & _ & Q & E). cbn [bind fst snd] in *. rewrite E. unfold pull in *. destruct (N.of_nat w <=? rest a); cbn [bind fst snd] in *; eexists; (split; [reflexivity|exact Q]).
Qed.
Lemma run_ok : forall os b a, R b a -> run b os = OK (spec_run a os).
Proof.
  induction os as [|o r IH]; intros b a H; [reflexivity|]. cbn [run spec_run]. destruct (step_ok b a o H) as (b' & -> & Q). cbn [bind snd fst]. rewrite (IH b' _ Q). destruct (spec a o); reflexivity.
Qed.

(** ** the theorems *)
(** a new buffer, for [n] bytes, or up to [mx]; memory of someone else *)
Theorem c84_open n os : n <= SIZE_MAX -> run (ibuf_open n) os = OK (spec_run (mkA [] 0 n true (n =? 0)) os).
Proof.
  intros L. apply run_ok. unfold ibuf_open. constructor; cbn [blk size max wpos rpos stack a_all a_cur a_max a_grow a_none]; try reflexivity; try lia.
  destruct (N.ltb_spec 0 n) as [A|A]; [|assert (n = 0) as -> by lia; split; reflexivity]. assert (n <> 0) as A2 by lia. apply N.eqb_neq in A2. rewrite A2. split; [reflexivity|]. split; [apply len_zeros|reflexivity].
Qed.
Theorem c84_dynamic n mx os : n <= mx -> 0 < mx -> mx <= SIZE_MAX -> exists b, ibuf_dynamic n mx = Some b /\ run b os = OK (spec_run (mkA [] 0 mx true (n =? 0)) os).
Proof.
  intros L L0 LM. unfold ibuf_dynamic. assert ((mx =? 0) || (mx <? n) = false) as ->. { apply orb_false_iff. split; [apply N.eqb_neq; lia|apply N.ltb_ge; exact L]. }
  eexists. split; [reflexivity|]. apply run_ok. constructor; cbn [blk size max wpos rpos stack a_all a_cur a_max a_grow a_none]; try reflexivity; try lia.
  destruct (N.ltb_spec 0 n) as [A|A]; [|assert (n = 0) as -> by lia; split; reflexivity]. assert (n <> 0) as A2 by lia. apply N.eqb_neq in A2. rewrite A2. split; [reflexivity|]. split; [apply len_zeros|reflexivity].
Qed.
Theorem c84_from_buffer d os : len d <= SIZE_MAX -> run (ibuf_from_buffer d) os = OK (spec_run (mkA d 0 0 false false) os).
Proof.
  intros L. apply run_ok. unfold ibuf_from_buffer. constructor; cbn [blk size max wpos rpos stack a_all a_cur a_max a_grow a_none]; try reflexivity; try lia; try discriminate.
  split; [reflexivity|]. split; [reflexivity|]. rewrite len_nat. apply firstn_all.
Qed.

(** what is written is read: numbers too *)
Lemma be_len w v : length (be w v) = w.
Proof. induction w as [|w IH]; cbn; [reflexivity|]. rewrite IH. reflexivity. Qed.
Lemma unbe_be v : forall w acc, unbe acc (be w v) = acc * 256 ^ N.of_nat w + v mod 256 ^ N.of_nat w.
Proof.
  induction w as [|w IH]; intros acc; [cbn [be unbe]; change (256 ^ N.of_nat 0) with 1; rewrite N.mod_1_r; lia|]. cbn [be unbe]. rewrite IH. rewrite Nat2N.inj_succ, N.pow_succ_r'. set (p := 256 ^ N.of_nat w).
  assert (P : p <> 0) by (apply N.pow_nonzero; discriminate). rewrite (N.mul_comm 256 p), N.mod_mul_r by (try exact P; discriminate). lia.
Qed.
Theorem c84_number w v : v < 256 ^ N.of_nat w -> unbe 0 (be w v) = v /\ length (be w v) = w.
Proof. intros L. split; [|apply be_len]. rewrite unbe_be, N.mod_small by exact L. lia. Qed.
(** messages: parts written one after the other come out again in the same order *)
Theorem c84_round mx parts : 0 < mx -> mx <= SIZE_MAX -> len (concat parts) <= mx -> Forall (fun d => d <> []) parts ->
  exists b, ibuf_dynamic 0 mx = Some b /\ run b (map Add parts ++ map (fun d => Get (len d)) parts ++ [Size]) = OK (map (fun _ => Done) parts ++ map Bytes parts ++ [Number 0]).
Proof.
  intros L0 LM LP NE. destruct (c84_dynamic 0 mx (map Add parts ++ map (fun d => Get (len d)) parts ++ [Size])) as (b & E & RU); [lia|exact L0|exact LM|]. exists b. split; [exact E|]. rewrite RU. f_equal.
  assert (W : forall ps al nn rest_, len al + len (concat ps) <= mx -> Forall (fun d => d <> []) ps -> (ps = [] -> nn = false) ->
    spec_run (mkA al 0 mx true nn) (map Add ps ++ rest_) = map (fun _ => Done) ps ++ spec_run (mkA (al ++ concat ps) 0 mx true false) rest_).
  { induction ps as [|d r IH]; intros al nn rs L F NN; cbn [map app concat spec_run].
    - rewrite app_nil_r, (NN eq_refl). reflexivity.
    - inversion F as [|x y ND F2]. subst x y. cbn [spec push]. cbn [concat] in L. rewrite len_app in L. unfold push, fits. cbn [a_all a_max a_grow a_none a_cur].
      destruct (N.leb_spec (len al + len d) mx) as [_|]; [|lia]. assert (len d =? 0 = false) as ->. { apply N.eqb_neq. destruct d; [congruence|]. unfold len. cbn. lia. }
      rewrite andb_false_r. cbn [andb negb]. rewrite IH; [rewrite app_assoc; reflexivity|rewrite len_app; lia|exact F2|reflexivity]. }
  assert (G : forall ps al rest_, spec_run (mkA (al ++ concat ps) (len al) mx true false) (map (fun d => Get (len d)) ps ++ rest_) = map Bytes ps ++ spec_run (mkA (al ++ concat ps) (len (al ++ concat ps)) mx true false) rest_).
  { induction ps as [|d r IH]; intros al rs; cbn [map app concat].
    - rewrite app_nil_r. reflexivity.
    - cbn [spec_run spec]. unfold pull, rest. cbn [a_all a_max a_grow a_none a_cur]. rewrite !len_app. destruct (N.leb_spec (len d) (len al + (len d + len (concat r)) - len al)) as [_|]; [|lia].
      rewrite !len_nat. rewrite skipn_app, skipn_all, Nat.sub_diag. cbn [app skipn]. rewrite firstn_app, firstn_all, Nat.sub_diag, firstn_O, app_nil_r. f_equal.
      rewrite app_assoc. specialize (IH (al ++ d) rs). rewrite len_app in IH. rewrite IH. rewrite !len_app. rewrite N.add_assoc. reflexivity. }
  destruct parts as [|d r]; [reflexivity|]. rewrite W; [|cbn; exact LP|exact NE|discriminate]. f_equal. cbn [app]. specialize (G (d :: r) [] [Size]). cbn [app] in G. change (len []) with 0 in G. rewrite G. f_equal.
  cbn [spec_run spec]. unfold rest. cbn [a_all a_cur]. rewrite N.sub_diag. reflexivity.
Qed.

(** "Nothing can always be added": a buffer without memory says it failed. *)
Theorem c84_nothing_refuted : run (ibuf_open 0) [Add []] = OK [Failed].
Proof. reflexivity. Qed.

(** ** a case *)
Example c84_case : exists b, ibuf_dynamic 2 9 = Some b /\
  run b [AddN 2 513; Add [7; 8]; SetAt 1 [99]; Size; GetN 2; Left; Add [1; 2; 3; 4; 5; 6]; AddZero 2; Truncate 1; Rewind; Get 4; Truncate 2; Get 3; Get 2; GetN 8] =
    OK [Done; Done; Done; Number 4; Number 611; Number 5; Failed; Done; Done; Done; Failed; Done; Failed; Bytes [2; 99]; Failed].
Proof. eexists. split; [reflexivity|]. vm_compute. reflexivity. Qed.
