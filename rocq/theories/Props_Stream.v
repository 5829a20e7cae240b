(** Property theorems about protected data over a stream. *)
From Coq Require Import Lia.
From Verif Require Import Bytes Types World CallbackSpec Gssapi Session Spec_Gssapi Spec_GssPair Spec_Stream
  ExampleEnv ExampleScram Proof_Gssapi Proof_GssPair Proof_Stream Props_GssPair.

(** ** C107 *)

(** A library that marks both ends of what it wraps. *)
Definition ex_wrap (c : gctx) (conf : bool) (m : bytes) : option bytes :=
  Some (((if conf then "C"%char else "I"%char) :: m) ++ [";"%char]).
Definition ex_unwrap (c : gctx) (t : bytes) : option bytes :=
  match rev t with
  | x :: r => if Ascii.eqb x ";" then match rev r with _ :: m => Some m | [] => None end else None
  | [] => None
  end.
Definition ex_marks : env :=
  mk_env (mk_sdata (lit "GSSAPI") SClient) (fun _ _ _ _ => CRet None)
    (fun _ _ _ => VRet None) 0 no_chan (fun _ => 0%N) ex_hash ex_hmac ex_pbkdf2 (fun x => Some x)
    (fun o => ob_status o) (fun x => None) (fun _ => true) true
    (fun _ _ => None) (fun _ => false) (fun _ => None) ex_wrap ex_unwrap.
Lemma ex_marks_delivers : delivers ex_marks ex_marks ex_any.
Proof.
  intros c s conf m _. eexists. split; [reflexivity|]. split; [discriminate|]. split; [|exact I].
  cbn [ex_marks e_gss_unwrap]. unfold ex_unwrap. rewrite rev_app_distr. cbn [rev app]. cbn [Ascii.eqb Bool.eqb].
  change (rev m ++ [if conf then "C"%char else "I"%char]) with (rev ((if conf then "C"%char else "I"%char) :: m)).
  rewrite rev_involutive. reflexivity.
Qed.
Definition ex_from : session := ex_at (XGssapiC (GcCompleted (Some ([GInit (lit "imap@host")], true)))).
Definition ex_to : session := ex_at (XGssapiS (GsDone (Some ([GAccept], true)))).
Lemma ex_joined : joined ex_any ex_from ex_to.
Proof. do 4 eexists. split; [exact I|]. split; [left; reflexivity|right; reflexivity]. Qed.

(** C107 is false as stated: cut in two, a token cannot be read. *)
Theorem C107_stream_refuted :
  ~ (forall e1 e2 R, delivers e1 e2 R ->
       forall ds fs a a' b, joined R a b -> encoded e1 a ds fs a' ->
       forall ps, concat ps = concat fs -> exists b', receives e2 b [] ps (concat ds) b').
Proof.
  intros H.
  assert (E : exists a', encoded ex_marks ex_from [lit "hello"] [lit "Chello;"] a').
  { eexists. econstructor; [reflexivity|constructor]. }
  destruct E as [a' E].
  destruct (H _ _ _ ex_marks_delivers _ _ _ _ _ ex_joined E [lit "Chel"; lit "lo;"] eq_refl) as [b' K].
  apply each_piece in K. inversion K as [|x l _ K1]; subst. inversion K1 as [|x l K2 _]; subst.
  destruct K2 as [K2|(c & m & K2)]; [discriminate K2|]. vm_compute in K2. discriminate K2.
Qed.
Print Assumptions C107_stream_refuted.

(** C107: if every token arrives in a piece of its own, the data arrives, however much of it. Missing: other
    pieces. *)
Theorem C107_stream_partial : forall e1 e2 R, delivers e1 e2 R ->
  forall ds fs a a' b, joined R a b -> encoded e1 a ds fs a' ->
  exists b', receives e2 b [] fs (concat ds) b' /\ joined R a' b'.
Proof. exact whole_frames. Qed.
Print Assumptions C107_stream_partial.

(** Only then: every piece the receiver reads has to be a token the library accepts. *)
Theorem C107_pieces : forall e s buf ps out s', receives e s buf ps out s' ->
  Forall (fun p => p = [] \/ exists c m, e_gss_unwrap e c p = Some m) (buf :: ps).
Proof. exact each_piece. Qed.
Print Assumptions C107_pieces.

(** The cause: decode takes its input whole or fails, and never asks for more. *)
Theorem C107_whole : forall e s input script r out s',
  session_decode e s input script = (r, out, s') ->
  r <> Err EInputDataRequired /\ (forall n, r = Ok n -> n = length input) /\
  ((exists c conf, protects (s_mech s) c conf) \/ r = Err ENoSecurityLayer).
Proof. exact decode_all. Qed.
Print Assumptions C107_whole.

(** Nor does encode return Ok(0) when the writer takes nothing. *)
Theorem C107_zero : forall e s c conf input t rest,
  protects (s_mech s) c conf -> e_gss_wrap e c conf input = Some t -> t <> [] ->
  exists s', session_encode e s input (WAccept 0 :: rest) = (Err (EIo IoWriteZero), [], s').
Proof. exact encode_zero. Qed.
Print Assumptions C107_zero.

(** ** Examples *)

Example C107_example :
  delivers ex_marks ex_marks ex_any /\ joined ex_any ex_from ex_to /\
  (exists a', encoded ex_marks ex_from [lit "hello"; []; lit "world"] [lit "Chello;"; lit "C;"; lit "Cworld;"] a') /\
  (exists b', receives ex_marks ex_to [] [lit "Chello;"; lit "C;"; lit "Cworld;"] (lit "helloworld") b') /\
  fst (session_decode ex_marks ex_to (lit "Chel") []) = (Err (EMech MGss), []) /\
  fst (session_encode ex_marks ex_from (lit "hello") [WAccept 0]) = (Err (EIo IoWriteZero), []).
Proof.
  split; [exact ex_marks_delivers|]. split; [exact ex_joined|].
  assert (E : exists a', encoded ex_marks ex_from [lit "hello"; []; lit "world"] [lit "Chello;"; lit "C;"; lit "Cworld;"] a').
  { eexists. do 3 (econstructor; [reflexivity|]). constructor. }
  split; [exact E|]. destruct E as [a' E].
  destruct (whole_frames _ _ _ ex_marks_delivers _ _ _ _ _ ex_joined E) as (b' & H & _).
  split; [exists b'; exact H|]. split; reflexivity.
Qed.
