(** C89. *)
From Coq Require Import List NArith.
From Verif Require Import Bytes Utf8 Base64 Num Types World CallbackSpec Simple OAuth ScramParser
  Scram Session ChannelBindings Spec_Simple Spec_ScramText Spec_Scram Spec_Agree ExampleEnv ExampleScram
  Proof_Channel.
Import ListNotations.

(** C89: a client that uses channel binding and accepts what a server session wrote has data of
    the same binding as that server. One that would have used it accepts no server that offers it. *)
Theorem C89_client : forall ec es sc ss a plus splus input script1 st1 m1 sc1 evs1 m2' script2 st2 m3 sc2 m1' sscript1 sst m2 ss1 m3' sscript2 r m4 ss2 script3 st out sc3,
  s_mech sc = XScramC a (Some (ScInitial plus)) -> polite ec -> no_zero script1 -> no_zero script2 ->
  step ec sc input script1 = (Ok st1, m1, sc1) -> new_events sc sc1 evs1 -> text_answers evs1 ->
  step ec sc1 (Some m2') script2 = (Ok st2, m3, sc2) ->
  s_mech ss = XScramS a (Some (SsClientFirst splus)) -> no_zero sscript1 ->
  crypto_ok es -> same_crypto ec es ->
  step es ss (Some m1') sscript1 = (Ok sst, m2, ss1) ->
  step es ss1 (Some m3') sscript2 = (r, m4, ss2) ->
  step ec sc2 (Some m4) script3 = (Ok st, out, sc3) ->
  exists evs sp ck sk evs2 salt n v v' two t p64 exts,
    new_events ss ss1 evs /\ answers PScramStoredPassword evs = [sp] /\
    new_events sc1 sc2 evs2 /\ keys_from ec a evs2 salt n ck sk /\
    client_saw ec a v ck m1 m2' m3 /\ server_saw v' two t p64 exts m1' m2 m3' /\
    (match plus with
     | Supported => exists name data, client_binding ec evs1 name data /\ cb_source es evs name data
     | ServerNoSupport => splus = false
     | ClientNoSupport => True
     end \/
     hmac_collision es a sk (view_message v) (st_server_key sp) (view_message v')).
Proof. exact client_same_channel. Qed.
Print Assumptions C89_client.

(** C89: the same of a server that accepts a proof the client made. *)
Theorem C89_server : forall ec es sc ss a plus splus input script1 st1 m1 sc1 evs1 m2' script2 st2 m3 sc2 m1' sscript1 sst m2 ss1 m3' sscript2 r m4 ss2 p64,
  s_mech sc = XScramC a (Some (ScInitial plus)) -> polite ec -> no_zero script1 -> no_zero script2 ->
  step ec sc input script1 = (Ok st1, m1, sc1) -> new_events sc sc1 evs1 -> text_answers evs1 ->
  step ec sc1 (Some m2') script2 = (Ok st2, m3, sc2) ->
  s_mech ss = XScramS a (Some (SsClientFirst splus)) -> no_zero sscript1 ->
  crypto_ok es -> same_crypto ec es ->
  step es ss (Some m1') sscript1 = (Ok sst, m2, ss1) ->
  step es ss1 (Some m3') sscript2 = (r, m4, ss2) ->
  ends_in_proof m3 p64 -> ends_in_proof m3' p64 -> vouches ss1 ss2 m4 ->
  exists evs sp ck sk evs2 salt n v v' two t exts,
    new_events ss ss1 evs /\ answers PScramStoredPassword evs = [sp] /\
    new_events sc1 sc2 evs2 /\ keys_from ec a evs2 salt n ck sk /\
    client_saw ec a v ck m1 m2' m3 /\ server_saw v' two t p64 exts m1' m2 m3' /\
    (st_stored_key sp = e_hash es a ck ->
     match plus with
     | Supported => exists name data, client_binding ec evs1 name data /\ cb_source es evs name data
     | ServerNoSupport => splus = false
     | ClientNoSupport => True
     end \/
     hmac_collision es a (st_stored_key sp) (view_message v) (st_stored_key sp) (view_message v') \/
     hash_collision es a (key_seen es a ck v v') ck).
Proof. exact server_same_channel. Qed.
Print Assumptions C89_server.

(** C89: with the callback ThisCb at both ends, and nothing from the applications, the two values
    are one. *)
Theorem C89_client_this_cb : forall ec es sc ss a splus input script1 st1 m1 sc1 evs1 m2' script2 st2 m3 sc2 m1' sscript1 sst m2 ss1 evs m3' sscript2 r m4 ss2 script3 st out sc3 n d n' d',
  s_mech sc = XScramC a (Some (ScInitial Supported)) -> polite ec -> no_zero script1 -> no_zero script2 ->
  step ec sc input script1 = (Ok st1, m1, sc1) -> new_events sc sc1 evs1 -> text_answers evs1 ->
  step ec sc1 (Some m2') script2 = (Ok st2, m3, sc2) ->
  s_mech ss = XScramS a (Some (SsClientFirst splus)) -> no_zero sscript1 ->
  crypto_ok es -> same_crypto ec es ->
  step es ss (Some m1') sscript1 = (Ok sst, m2, ss1) ->
  step es ss1 (Some m3') sscript2 = (r, m4, ss2) ->
  step ec sc2 (Some m4) script3 = (Ok st, out, sc3) ->
  e_chan ec = this_cb n d -> e_chan es = this_cb n' d' -> new_events ss ss1 evs ->
  answers PChannelBindings evs1 = [] -> answers PChannelBindings evs = [] ->
  exists sp ck sk evs2 salt i v v' two t p64 exts,
    answers PScramStoredPassword evs = [sp] /\
    new_events sc1 sc2 evs2 /\ keys_from ec a evs2 salt i ck sk /\
    client_saw ec a v ck m1 m2' m3 /\ server_saw v' two t p64 exts m1' m2 m3' /\
    ((n = n' /\ d = d') \/
     hmac_collision es a sk (view_message v) (st_server_key sp) (view_message v')).
Proof. exact client_this_cb. Qed.
Print Assumptions C89_client_this_cb.

(** C89: the same at the server. *)
Theorem C89_server_this_cb : forall ec es sc ss a splus input script1 st1 m1 sc1 evs1 m2' script2 st2 m3 sc2 m1' sscript1 sst m2 ss1 evs m3' sscript2 r m4 ss2 p64 n d n' d',
  s_mech sc = XScramC a (Some (ScInitial Supported)) -> polite ec -> no_zero script1 -> no_zero script2 ->
  step ec sc input script1 = (Ok st1, m1, sc1) -> new_events sc sc1 evs1 -> text_answers evs1 ->
  step ec sc1 (Some m2') script2 = (Ok st2, m3, sc2) ->
  s_mech ss = XScramS a (Some (SsClientFirst splus)) -> no_zero sscript1 ->
  crypto_ok es -> same_crypto ec es ->
  step es ss (Some m1') sscript1 = (Ok sst, m2, ss1) ->
  step es ss1 (Some m3') sscript2 = (r, m4, ss2) ->
  ends_in_proof m3 p64 -> ends_in_proof m3' p64 -> vouches ss1 ss2 m4 ->
  e_chan ec = this_cb n d -> e_chan es = this_cb n' d' -> new_events ss ss1 evs ->
  answers PChannelBindings evs1 = [] -> answers PChannelBindings evs = [] ->
  exists sp ck sk evs2 salt i v v' two t exts,
    answers PScramStoredPassword evs = [sp] /\
    new_events sc1 sc2 evs2 /\ keys_from ec a evs2 salt i ck sk /\
    client_saw ec a v ck m1 m2' m3 /\ server_saw v' two t p64 exts m1' m2 m3' /\
    (st_stored_key sp = e_hash es a ck ->
     (n = n' /\ d = d') \/
     hmac_collision es a (st_stored_key sp) (view_message v) (st_stored_key sp) (view_message v') \/
     hash_collision es a (key_seen es a ck v v') ck).
Proof. exact server_this_cb. Qed.
Print Assumptions C89_server_this_cb.

(** C89: without data nothing is bound, and nothing sent. *)
Theorem C89_client_unbound : forall e s a input script,
  s_mech s = XScramC a (Some (ScInitial Supported)) -> e_chan e = no_channel_bindings ->
  withholds e POverrideCBType -> withholds e PChannelBindings ->
  exists s', step e s input script = (Err (EMissingChannelBindingData (lit "tls-unique")), [], s').
Proof. exact plus_client_unbound. Qed.
Print Assumptions C89_client_unbound.

(** C89: nor does a server go on that has no data of the kind the client used. *)
Theorem C89_server_unbound : forall e s a plus m name two z user cn t script,
  s_mech s = XScramS a (Some (SsClientFirst plus)) -> e_chan e = no_channel_bindings ->
  withholds e PChannelBindings -> client_first_fields m (CbUsed name) two z user cn t ->
  exists s', step e s (Some m) script = (Err (EMissingChannelBindingData name), [], s').
Proof. exact server_unbound. Qed.
Print Assumptions C89_server_unbound.

(** One in the middle has a channel of their own to each end and passes everything on. *)
Definition ex_on (d : bytes) (props : list entry) : env :=
  ex_env (fun _ => ex_cb props) no_vcb (this_cb (lit "tls-exporter") d).
Definition ex_relayed (d d' : bytes) : bytes * res serr state :=
  let c := ex_on d [mk_entry PAuthId (lit "user"); mk_entry PAuthzId (lit "admin");
                    mk_entry PPassword (lit "secret")] in
  let s := ex_on d' [mk_entry PScramStoredPassword ex_sp] in
  let c1 := step c (ex_c Supported) None [] in
  let s1 := step s (ex_s true) (Some (out_of c1)) [] in
  let c2 := step c (ses_of c1) (Some (out_of s1)) [] in
  let s2 := step s (ses_of s1) (Some (out_of c2)) [] in
  let c3 := step c (ses_of c2) (Some (out_of s2)) [] in
  (firstn 27 (out_of s2), res_of c3).
Example C89_example :
  polite (ex_on (lit "one") []) /\ crypto_ok (ex_on (lit "two") []) /\
  ex_relayed (lit "one") (lit "one") = (lit "v=" ++ skipn 2 (fst (ex_relayed (lit "one") (lit "one"))), Ok (Finished false)) /\
  ex_relayed (lit "one") (lit "two") =
    (lit "e=channel-bindings-dont-mat", Err (EMech (MScramServerError SeChannelBindingsDontMatch))) /\
  withholds ex_empty POverrideCBType /\ withholds ex_empty PChannelBindings /\
  res_of (step (ex_env (fun _ => ex_cb []) no_vcb no_channel_bindings) (ex_c Supported) None [])
    = Err (EMissingChannelBindingData (lit "tls-unique")) /\
  res_of (step (ex_env (fun _ => ex_cb []) no_vcb no_channel_bindings) (ex_s true) (Some ex_b1) [])
    = Err (EMissingChannelBindingData (lit "tls-exporter")).
Proof.
  split; [intros tr c k; simpl; repeat split|]. split; [apply ex_crypto|].
  split; [vm_compute; reflexivity|]. split; [vm_compute; reflexivity|].
  split; [intros tr c; vm_compute; auto|]. split; [intros tr c; vm_compute; auto|].
  split; vm_compute; reflexivity.
Qed.
