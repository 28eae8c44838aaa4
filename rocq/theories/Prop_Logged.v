(** C48: every reply is logged exactly once, unless logging is off *)
From Verif Require Import Base Compat IriSpec Conf Mime Fmt Fcgi Server ServerSpec HistorySpec RequestSpec Prop_Server Prop_History Logged_Proofs.
Local Open Scope N_scope.

(** Whatever happens on a connection (polite client or not), the event that
    makes the server reply [rs] also makes it log exactly [rs], with the same
    codes and metas, in the same order, unless logging is off for the request
    the server is then dealing with; no other event logs anything. *)
Theorem c48_logged E es e c c' : history E es c -> step E e c = Some (OK c') ->
  exists rs, replies c' = replies c ++ rs /\
    logs c' = logs c ++ (if vhost_disable_log (e_fnm E) (c_vhost c') (path_of c') then [] else rs).
Proof.
  intros _ S. apply step_lk in S. destruct S as (c1 & (A & _) & (V & _) & I & new & B & L). exists (flat_map rep1 new).
  unfold replies, logs. rewrite B, A, !flat_map_app. split; [reflexivity|]. f_equal.
  unfold path_of. rewrite V, I. exact L.
Qed.

(** In particular, where no request ever gets logging switched off, the log is
    the list of the replies. *)
Theorem c48_all_logged E es c :
  (forall es' c1, history E es' c1 -> vhost_disable_log (e_fnm E) (c_vhost c1) (path_of c1) = false) ->
  history E es c -> logs c = replies c.
Proof.
  intros D H. induction H as [|es e c c' H IH S]; [reflexivity|].
  destruct (c48_logged E es e c c' H S) as (rs & R & L). rewrite R, L, (D (es ++ [e]) c'), IH; [reflexivity|]. eapply h_step; eauto.
Qed.

(** an impolite client: two replies, two lines *)
Example c48_example_impolite : exists c, history fcgi_env pipelined c /\
  replies c = [(20, s2b "text/plain"); (59, s2b "bad request")] /\ logs c = replies c.
Proof.
  assert (X : exists c, run fcgi_env pipelined fresh = Some (OK c) /\ replies c = [(20, s2b "text/plain"); (59, s2b "bad request")] /\ logs c = replies c).
  { eexists. split; [vm_compute; reflexivity|]. split; vm_compute; reflexivity. }
  destruct X as (c & R & X). exists c. split; [apply history_run; exact R|exact X].
Qed.
