(** Property theorems about the salt and iteration count a SCRAM client accepts. *)
From Coq Require Import Lia ZArith.
From Verif Require Import Bytes Base64 Num Types World CallbackSpec Scram Session Spec_Flow Spec_Simple Spec_OAuth Spec_ScramText Spec_Scram
  Spec_Policy ExampleEnv ExampleScram Proof_Policy.

(** ** C83 *)

(** Full claim: a SCRAM client proves its password only under a salt and an iteration count as RFC 7677
    recommends. *)
Theorem C83_recommended_refuted :
  ~ (forall e s a cb nonce user m script out s' sn salt64 salt iters n, client_waits s a cb nonce user ->
       step e s (Some m) script = (Ok Running, out, s') -> continues m nonce sn salt64 salt iters n ->
       recommended salt n).
Proof. exact not_recommended. Qed.
Print Assumptions C83_recommended_refuted.

(** It takes any salt, even none, and any count from 1: whoever poses as the server gets a proof that
    costs one iteration per guess and no salt. *)
Theorem C83_any : forall e s a cb nonce user sn salt n p,
  client_waits s a cb nonce user -> crypto_ok e -> gives_keys e a p salt n ->
  sn <> [] -> free ","%char (nonce ++ sn) -> (1 <= n <= u32_max)%N ->
  let m := lit "r=" ++ nonce ++ sn ++ lit ",s=" ++ encode salt ++ lit ",i=" ++ fmt_u32 n in
  exists s', step e s (Some m) [] = (Ok Running, lit "c=" ++ cb ++ lit ",r=" ++ nonce ++ sn ++ lit ",p=" ++
    encode (client_proof e a (client_key_of e a (e_pbkdf2 e a p salt n))
      (exchange_message user nonce sn (encode salt) (fmt_u32 n) cb)), s').
Proof. exact any_count. Qed.
Print Assumptions C83_any.

(** What holds instead: the application is shown the salt and the count of the message with every
    request, and if it gives no key then nothing is sent. *)
Theorem C83_shown_partial : forall e s a cb nonce user m script r out s',
  client_waits s a cb nonce user -> step e s (Some m) script = (r, out, s') ->
  exists evs, new_events s s' evs /\
    (evs <> [] -> exists sn salt64 salt iters n, continues m nonce sn salt64 salt iters n /\ shown salt n evs) /\
    (declined evs -> out = [] /\ forall st, r <> Ok st).
Proof. exact step_shown. Qed.
Print Assumptions C83_shown_partial.

(** ** Examples *)

(** The client of the examples answers a message without salt that asks for one iteration, which is not
    what is recommended. *)
Example C83_any_example :
  let m := lit "r=" ++ firstn 24 (skipn 2 ex_b2) ++ lit "X" ++ lit ",s=,i=1" in
  client_waits ex_bs1 SHA1 (encode (lit "p=tls-exporter,a=admin,data")) (firstn 24 (skipn 2 ex_b2)) (lit "user") /\
  gives_keys ex_cl SHA1 (lit "secret") [] 1 /\ ~ recommended [] 1 /\
  res_of (step ex_cl ex_bs1 (Some m) []) = Ok Running.
Proof.
  cbv zeta. split; [vm_compute; reflexivity|]. split.
  { right. right. split; [|split]; intros tr c; (split; [simpl; repeat split|]); try (left; reflexivity). reflexivity. }
  split; [intros [H _]; congruence|]. vm_compute. reflexivity.
Qed.

(** An application that gives its password only for 4096 iterations and more. *)
Definition ex_careful : env :=
  set_apps ex_cl (fun _ _ c k => match k, get_ref c PIterations with
                         | RSatisfy PPassword, Some n =>
                             if N.leb 4096 n then ex_cb [mk_entry PPassword (lit "secret")]
                             else CRet None
                         | _, _ => CRet None
                         end) (e_vcb ex_cl) (e_pbkdf2 ex_cl).
Example C83_shown_example :
  out_of (step ex_careful ex_bs1 (Some ex_b2) []) = ex_b3 /\
  (let m := lit "r=" ++ firstn 24 (skipn 2 ex_b2) ++ lit "X,s=,i=4095" in
   let t := step ex_careful ex_bs1 (Some m) [] in
   out_of t = [] /\ res_of t = Err (ECbNoCallback PPassword) /\
   exists evs, new_events ex_bs1 (ses_of t) evs /\ declined evs /\ length evs = 3 /\ shown [] 4095 evs).
Proof.
  split; [vm_compute; reflexivity|]. cbv zeta. split; [vm_compute; reflexivity|].
  split; [vm_compute; reflexivity|].
  eexists [EvRequest _ _; EvRequest _ _; EvRequest _ _]. split; [vm_compute; reflexivity|].
  split; [split; [|split]; reflexivity|]. split; [reflexivity|].
  intros q c I. repeat (destruct I as [I|I]; [injection I as <- <-|]); [| | |destruct I];
    (split; [unfold key_property; auto|]); (split; [reflexivity|split; [reflexivity|]]);
    intros q H1 H2; destruct q; congruence || reflexivity.
Qed.
