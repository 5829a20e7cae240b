(** C127: a user goes by one name. *)
From Verif Require Import Bytes Utf8 Base64 Num Types World CallbackSpec Simple OAuth ScramParser Scram Gssapi Session
  Registry Spec_Simple Spec_OAuth Spec_ScramText Spec_Scram Spec_Registry Spec_Order Spec_History Spec_Names
  ExampleEnv ExampleScram Proof_Names.

(** C127 is false: the user "a,b" of a SCRAM client is shown as "a=2Cb". *)
Definition ex_ac : env := ex_user (lit "a,b").
Definition ex_ac1 : bytes := Eval vm_compute in out_of (step ex_ac (ex_c ClientNoSupport) None []).
Definition ex_acc1 : session := Eval vm_compute in ses_of (step ex_ac (ex_c ClientNoSupport) None []).
Lemma ex_ac_told : told ex_ac ex_sv (DScram SHA1 false) (ex_c ClientNoSupport) (ex_s false) ex_acc1 (ex_s false) ex_ac1.
Proof.
  exists 0, None, (ex_c ClientNoSupport), [], Running. split; [apply (chat_start ex_ac ex_sv (DScram SHA1 false))|].
  split; [constructor|vm_compute; reflexivity].
Qed.
Lemma ex_c_begun : begun [] SClient (DScram SHA1 false) (ex_c ClientNoSupport).
Proof. apply fc_scram. discriminate. Qed.
Lemma ex_s_begun : begun [] SServer (DScram SHA1 false) (ex_s false).
Proof. apply fs_scram. split; [discriminate|intros [x [[] _]]]. Qed.
Lemma ex_ac_proper : proper_names (DScram SHA1 false) (s_trace ex_acc1).
Proof. split; [ex_text|]. split; [intros t []|discriminate]. Qed.

Theorem C127_refuted : ~ (forall ec es reg m c0 s0 c s msg evs script r out s' evs' x b,
  begun reg SClient m c0 -> begun reg SServer m s0 -> polite ec ->
  told ec es m c0 s0 c s msg -> new_events c0 c evs -> proper_names m evs ->
  step es s (Some msg) script = (r, out, s') -> new_events s s' evs' -> shown evs' x ->
  get_ref x PAuthId = Some b -> In b (answers PAuthId evs)).
Proof.
  intros H.
  assert (K : In (lit "a=2Cb") (answers PAuthId (s_trace ex_acc1))).
  { refine (H ex_ac ex_sv [] (DScram SHA1 false) (ex_c ClientNoSupport) (ex_s false) ex_acc1 (ex_s false) ex_ac1
      (s_trace ex_acc1) [] (res_of (step ex_sv (ex_s false) (Some ex_ac1) [])) (out_of (step ex_sv (ex_s false) (Some ex_ac1) []))
      (ses_of (step ex_sv (ex_s false) (Some ex_ac1) [])) (s_trace (ses_of (step ex_sv (ex_s false) (Some ex_ac1) [])))
      (scram_server_provider (lit "a=2Cb") (Some (lit "admin"))) (lit "a=2Cb")
      ex_c_begun ex_s_begun (ex_cl_polite _) ex_ac_told eq_refl ex_ac_proper _ eq_refl _ eq_refl).
    - vm_compute. reflexivity.
    - right. left. exists PScramStoredPassword. vm_compute. left. reflexivity. }
  vm_compute in K. destruct K as [K|[]]. discriminate K.
Qed.
Print Assumptions C127_refuted.

(** C127: a name the server's application is shown in answer to a message of the client is one the
    client's application gave, if saslprep leaves the names alone and neither ',' nor '=' is in them.
    Missing: other names. *)
Theorem C127_partial : forall ec es reg m c0 s0 c s msg evs script r out s' evs' x b,
  begun reg SClient m c0 -> begun reg SServer m s0 -> polite ec ->
  told ec es m c0 s0 c s msg -> new_events c0 c evs -> proper_names m evs ->
  (forall a, In a (answers PAuthId evs) -> prepared es a a /\ free ","%char a /\ free "="%char a) ->
  step es s (Some msg) script = (r, out, s') -> new_events s s' evs' -> shown evs' x ->
  get_ref x PAuthId = Some b -> In b (answers PAuthId evs).
Proof.
  intros ec es reg m c0 s0 c s msg evs script r out s' evs' x b Bc Bs Po T N P F K N' S G.
  destruct (names_arrive _ _ _ _ _ _ _ _ _ _ _ _ _ _ _ _ _ Bc Bs Po T N P K N' S G) as (a & A & W).
  destruct (F a A) as (F1 & F2 & F3). rewrite (seen_same _ _ _ _ W F1 F2 F3). exact A.
Qed.
Print Assumptions C127_partial.

(** C127: in general it is what the mechanism makes of such a name. *)
Theorem C127_seen : forall ec es reg m c0 s0 c s msg evs script r out s' evs' x b,
  begun reg SClient m c0 -> begun reg SServer m s0 -> polite ec ->
  told ec es m c0 s0 c s msg -> new_events c0 c evs -> proper_names m evs ->
  step es s (Some msg) script = (r, out, s') -> new_events s s' evs' -> shown evs' x ->
  get_ref x PAuthId = Some b -> exists a, In a (answers PAuthId evs) /\ seen_as es m a b.
Proof. exact names_arrive. Qed.
Print Assumptions C127_seen.

(** C127: hence a server that offers PLAIN and SCRAM takes two users for one: the user [b] of PLAIN
    and the user [a] of SCRAM whose escaped name is [b]. *)
Theorem C127_confused : forall es ec1 cp i1 sc1 st1 m1 cp1 ev1 sp sc1' r1 out1 sp1 b
    ec2 cs g plus splus i2 sc2 st2 m2 cs1 ev2 ss sc2' r2 out2 ss1 a,
  s_mech cp = XPlainC -> step ec1 cp i1 sc1 = (Ok st1, m1, cp1) -> new_events cp cp1 ev1 ->
  answers PAuthId ev1 = [b] -> prepared es b b ->
  s_mech sp = XPlainS -> step es sp (Some m1) sc1' = (Ok r1, out1, sp1) ->
  s_mech cs = XScramC g (Some (ScInitial plus)) -> polite ec2 -> no_zero sc2 ->
  step ec2 cs i2 sc2 = (Ok st2, m2, cs1) -> new_events cs cs1 ev2 -> text_answers ev2 ->
  answers PAuthId ev2 = [a] -> escape a = Ok b ->
  s_mech ss = XScramS g (Some (SsClientFirst splus)) -> step es ss (Some m2) sc2' = (Ok r2, out2, ss1) ->
  exists evp evs c c', new_events sp sp1 evp /\ shown evp c /\ new_events ss ss1 evs /\ shown evs c' /\
    get_ref c PAuthId = Some b /\ get_ref c' PAuthId = Some b.
Proof. exact names_confused. Qed.
Print Assumptions C127_confused.

(** ** Examples *)

(** "user" arrives with the second message of a SCRAM client and with the second one of a LOGIN client. *)
Example C127_scram_example :
  told ex_cl ex_sv (DScram SHA1 false) (ex_c ServerNoSupport) (ex_s false) ex_ys3 ex_ys2 ex_y3 /\
  proper_names (DScram SHA1 false) (s_trace ex_ys3) /\ answers PAuthId (s_trace ex_ys3) = [lit "user"] /\
  prepared ex_sv (lit "user") (lit "user") /\
  exists x evs, new_events ex_ys2 (ses_of (step ex_sv ex_ys2 (Some ex_y3) [])) evs /\ shown evs x /\
    get_ref x PAuthId = Some (lit "user").
Proof.
  split.
  { exists 2, (Some ex_y2), ex_ys1, [], Running. split; [|split; [constructor|exact ex_yrun3]].
    refine (chat_server _ _ _ _ _ 1 (Some ex_y1) _ _ [] _ _ _ (Forall_nil _) ex_yrun2).
    refine (chat_client _ _ _ _ _ 0 None _ _ [] _ _ _ (Forall_nil _) ex_yrun1).
    apply (chat_start ex_cl ex_sv (DScram SHA1 false)). }
  split; [split; [ex_text|split; [intros t []|discriminate]]|]. split; [reflexivity|].
  split; [split; [reflexivity|discriminate]|].
  exists (scram_server_provider (lit "user") (Some (lit "admin"))). eexists. split; [vm_compute; reflexivity|].
  split; [left; left; reflexivity|reflexivity].
Qed.

Definition ex_lc : env := ex_env (fun _ => ex_cb [mk_entry PAuthId (lit "user"); mk_entry PPassword (lit "secret")]) no_vcb no_chan.
Definition ex_l1 := Eval vm_compute in step ex_sv (ex_at (XLoginS LsNew)) None [].
Definition ex_l2 := Eval vm_compute in step ex_lc (ex_at (XLoginC LcAuthid)) (Some (out_of ex_l1)) [].
Definition ex_l3 := Eval vm_compute in step ex_sv (ses_of ex_l1) (Some (out_of ex_l2)) [].
Definition ex_l4 := Eval vm_compute in step ex_lc (ses_of ex_l2) (Some (out_of ex_l3)) [].
Example C127_login_example :
  told ex_lc ex_sv DLogin (ex_at (XLoginC LcAuthid)) (ex_at (XLoginS LsNew)) (ses_of ex_l4) (ses_of ex_l3) (out_of ex_l4) /\
  proper_names DLogin (s_trace (ses_of ex_l4)) /\
  s_trace (ses_of (step ex_sv (ses_of ex_l3) (Some (out_of ex_l4)) []))
  = [EvValidate (login_provider (lit "user") (lit "secret"))].
Proof.
  split; [|split; [split; [ex_text|split; [intros t []|discriminate]]|vm_compute; reflexivity]].
  exists 3, (Some (out_of ex_l3)), (ses_of ex_l2), [], (Finished true).
  split; [|split; [constructor|vm_compute; reflexivity]].
  refine (chat_server _ _ _ _ _ 2 (Some (out_of ex_l2)) _ (ses_of ex_l1) [] _ _ _ (Forall_nil _) _); [|vm_compute; reflexivity].
  refine (chat_client _ _ _ _ _ 1 (Some (out_of ex_l1)) (ex_at (XLoginC LcAuthid)) _ [] _ _ _ (Forall_nil _) _); [|vm_compute; reflexivity].
  refine (chat_server _ _ _ _ _ 0 None _ (ex_at (XLoginS LsNew)) [] _ _ _ (Forall_nil _) _); [|vm_compute; reflexivity].
  apply (chat_start ex_lc ex_sv DLogin).
Qed.

(** "a=2Cb" with PLAIN and "a,b" with SCRAM. *)
Definition ex_pc : env := ex_env (fun _ => ex_cb [mk_entry PAuthId (lit "a=2Cb"); mk_entry PPassword (lit "x")]) no_vcb no_chan.
Example C127_confused_example :
  let c := step ex_pc (ex_at XPlainC) None [] in
  let p := step ex_sv (ex_at XPlainS) (Some (out_of c)) [] in
  let q := step ex_sv (ex_s false) (Some ex_ac1) [] in
  res_of c = Ok (Finished true) /\ answers PAuthId (s_trace (ses_of c)) = [lit "a=2Cb"] /\
  res_of p = Ok (Finished false) /\ res_of q = Ok Running /\
  answers PAuthId (s_trace ex_acc1) = [lit "a,b"] /\ escape (lit "a,b") = Ok (lit "a=2Cb") /\
  prepared ex_sv (lit "a=2Cb") (lit "a=2Cb").
Proof. cbv zeta. do 6 (split; [vm_compute; reflexivity|]). split; [reflexivity|discriminate]. Qed.
