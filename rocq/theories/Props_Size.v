(** Property theorems about the maximal message sizes of GSSAPI. *)
From Coq Require Import NArith.
From Verif Require Import Bytes Types World CallbackSpec Gssapi Session Spec_Simple Spec_History
  Spec_Gssapi Spec_Size ExampleEnv ExampleScram Proof_Size Props_Simple Props_Gssapi.

Definition ex_small : bytes := [chr 2; chr 0; chr 0; chr 4].

(** C84 as stated is false: the client protects and sends messages that are longer than the
    server said it can receive. *)
Theorem C84_client_refuted :
  ~ (forall e s s1 c token b size script sent out s2 data script2 n out2 s3,
       s_mech s = XGssapiC GcInitial -> ongoing e s s1 -> awaits_size s1 c ->
       e_gss_unwrap e c token = Some (b :: size) ->
       step e s1 (Some token) script = (Ok (Finished sent), out, s2) ->
       session_encode e s2 data script2 = (Ok n, out2, s3) ->
       (N.of_nat (length out2) <= announced size)%N).
Proof.
  intros H. pose (e := ex_gss 1 ex_all (chr 7)). pose (s := ex_start (XGssapiC GcInitial)).
  assert (E : exists s1, step e s None [] = (Ok Running, lit "tok", s1) /\
    exists c, s_mech s1 = XGssapiC (GcLast c (chr 7)) /\
    exists out s2, step e s1 (Some ex_small) [] = (Ok (Finished true), out, s2) /\
    exists s3, session_encode e s2 (lit "hello") [] = (Ok 5, lit "hello", s3)).
  { eexists. split; [vm_compute; reflexivity|]. eexists. split; [cbn; reflexivity|].
    eexists. eexists. split; [vm_compute; reflexivity|]. eexists. vm_compute. reflexivity. }
  destruct E as [s1 [E1 [c [Ec [out [s2 [E2 [s3 E3]]]]]]]].
  refine (H e s s1 c ex_small (chr 2) [chr 0; chr 0; chr 4] [] true out s2 (lit "hello") [] 5
            (lit "hello") s3 eq_refl _ _ eq_refl E2 E3 _).
  - eapply ongoing_step; [constructor|exact E1].
  - exists (chr 7). left. exact Ec.
  - vm_compute. reflexivity.
Qed.
Print Assumptions C84_client_refuted.

(** Nor does the server keep to what the client said. *)
Theorem C84_server_refuted :
  ~ (forall e s s1 c token b size script sent out s2 data script2 n out2 s3,
       s_mech s = XGssapiS GsInitial -> ongoing e s s1 -> awaits_size s1 c ->
       e_gss_unwrap e c token = Some (b :: size) ->
       step e s1 (Some token) script = (Ok (Finished sent), out, s2) ->
       session_encode e s2 data script2 = (Ok n, out2, s3) ->
       (N.of_nat (length out2) <= announced size)%N).
Proof.
  intros H. pose (e := ex_gss 1 ex_all (chr 7)). pose (s := ex_start (XGssapiS GsInitial)).
  assert (E : exists s0, step e s (Some (lit "t")) [] = (Ok Running, lit "tok", s0) /\
    exists s1, step e s0 None [] = (Ok Running, ex_token 7, s1) /\
    exists c, s_mech s1 = XGssapiS (GsFinal c (chr 7)) /\
    exists out s2, step e s1 (Some ex_small) [] = (Ok (Finished false), out, s2) /\
    exists s3, session_encode e s2 (lit "hello") [] = (Ok 5, lit "hello", s3)).
  { eexists. split; [vm_compute; reflexivity|]. eexists. split; [vm_compute; reflexivity|].
    eexists. split; [cbn; reflexivity|].
    eexists. eexists. split; [vm_compute; reflexivity|]. eexists. vm_compute. reflexivity. }
  destruct E as [s0 [E0 [s1 [E1 [c [Ec [out [s2 [E2 [s3 E3]]]]]]]]]].
  refine (H e s s1 c ex_small (chr 2) [chr 0; chr 0; chr 4] [] false out s2 (lit "hello") [] 5
            (lit "hello") s3 eq_refl _ _ eq_refl E2 E3 _).
  - eapply ongoing_step; [eapply ongoing_step; [constructor|exact E0]|exact E1].
  - exists (chr 7). right. exact Ec.
  - vm_compute. reflexivity.
Qed.
Print Assumptions C84_server_refuted.

(** A size without a layer must be zero (RFC 4752, sections 3.1 and 3.2). Neither side checks. *)
Theorem C84_zero_refuted :
  ~ (forall e s s1 c token size script sent out s2,
       s_mech s = XGssapiC GcInitial \/ s_mech s = XGssapiS GsInitial ->
       ongoing e s s1 -> awaits_size s1 c ->
       e_gss_unwrap e c token = Some (chr 1 :: size) ->
       step e s1 (Some token) script = (Ok (Finished sent), out, s2) -> announced size = 0%N).
Proof.
  intros H. pose (e := ex_gss 1 ex_all (chr 7)). pose (s := ex_start (XGssapiC GcInitial)).
  assert (E : exists s1, step e s None [] = (Ok Running, lit "tok", s1) /\
    exists c, s_mech s1 = XGssapiC (GcLast c (chr 7)) /\
    exists out s2, step e s1 (Some (ex_token 1)) [] = (Ok (Finished true), out, s2)).
  { eexists. split; [vm_compute; reflexivity|]. eexists. split; [cbn; reflexivity|].
    eexists. eexists. vm_compute. reflexivity. }
  destruct E as [s1 [E1 [c [Ec [out [s2 E2]]]]]].
  assert (A : announced [chr 255; chr 255; chr 255] = 0%N).
  { refine (H e s s1 c (ex_token 1) _ [] true out s2 (or_introl eq_refl) _ _ eq_refl E2).
    - eapply ongoing_step; [constructor|exact E1].
    - exists (chr 7). left. exact Ec. }
  vm_compute in A. discriminate.
Qed.
Print Assumptions C84_zero_refuted.

(** C84: no size is ever looked at, by either side. Two tokens that differ in the size alone have
    the same outcome and reply, and everything encoded or decoded afterwards is the same. Missing:
    what the property asks for. The sizes that rsasl itself announces are the subject of C51 and
    C52. *)
Theorem C84_ignored_partial : forall e c t1 t2 s b size1 size2 script l,
  same_library e c t1 t2 -> awaits_size s c ->
  e_gss_unwrap e c t1 = Some (b :: size1) -> e_gss_unwrap e c t2 = Some (b :: size2) ->
  length size1 = 3 -> length size2 = 3 ->
  fst (step e s (Some t1) script) = fst (step e s (Some t2) script) /\
  transfers e (snd (step e s (Some t1) script)) l = transfers e (snd (step e s (Some t2) script)) l.
Proof. exact size_ignored. Qed.
Print Assumptions C84_ignored_partial.

Example C84_example :
  let e := ex_gss 1 ex_all (chr 7) in
  let s := snd (step e (ex_start (XGssapiC GcInitial)) None []) in
  exists c, same_library e c ex_small (ex_token 2) /\ awaits_size s c /\
    announced (tl ex_small) = 4%N /\ announced (tl (ex_token 2)) = 16777215%N /\
    fst (step e s (Some ex_small) []) = (Ok (Finished true), ex_token 2) /\
    transfers e (snd (step e s (Some ex_small) [])) [(true, lit "hello", []); (false, lit "you", [])]
      = [(Ok 5, lit "hello"); (Ok 3, lit "you")].
Proof.
  cbv zeta. eexists. split; [intros calls m; split; reflexivity|].
  split; [exists (chr 7); left; cbn; reflexivity|].
  repeat split; vm_compute; reflexivity.
Qed.
