(** Property theorems about what is displayed of errors. *)
From Verif Require Import Bytes Types World CallbackSpec Mechname Scram Session Spec_Simple Spec_Errors Display Spec_Display
  ExampleEnv ExampleScram Proof_Display.

(** ** C114 *)

(** An error of a step is displayed as one line of printable ASCII, whatever has been received: a peer
    cannot put line breaks or control characters into a log.  Assumed of the texts that are not this
    crate's: the errors of the application, of stringprep and of libgssapi are displayed as such lines,
    and the application's own name of a channel binding (of a client) is one. *)
Theorem C114_printable : forall T e s input script x out s' evs t,
  printable_texts T -> step e s input script = (Err x, out, s') -> new_events s s' evs -> shows T x t ->
  (forall name, begins_scram s -> In (EvAnswer POverrideCBType name) evs -> printable name) ->
  (forall name, app_returns e (s_trace s) evs (EMissingChannelBindingData name) -> printable name) ->
  printable t.
Proof. exact displayed. Qed.
Print Assumptions C114_printable.

(** The only text of variable length that is displayed: the name of a channel binding.  If it is not the
    application's, nor one of the two a client tries by itself, then it is what the received message
    says, and consists of letters, digits, dots and hyphens. *)
Theorem C114_name : forall e s input script out s' evs name,
  step e s input script = (Err (EMissingChannelBindingData name), out, s') -> new_events s s' evs ->
  app_returns e (s_trace s) evs (EMissingChannelBindingData name) \/
  (exists m, input = Some m /\ names_binding m name) \/
  (begins_scram s /\
   ((name = lit "tls-exporter" \/ name = lit "tls-unique") \/ In (EvAnswer POverrideCBType name) evs)).
Proof. exact missing_name. Qed.
Print Assumptions C114_name.

(** A byte that a parse error shows is one of the received message: the first one of an attribute, or the
    first one that must not be in the name of a channel binding. *)
Theorem C114_byte : forall e s input script x out s' evs b,
  step e s input script = (Err (EMech (MScramParse x)), out, s') -> new_events s s' evs ->
  x = PeInvalidAttribute b \/ x = PeBadCBName b ->
  app_returns e (s_trace s) evs (EMech (MScramParse x)) \/
  exists m, input = Some m /\
    (begins_attribute m b \/
     exists a r, m = lit "p=" ++ a ++ b :: r /\ Forall name_char a /\ ~ name_char b).
Proof. exact displayed_byte. Qed.
Print Assumptions C114_byte.

(** Everything else comes from one finite list of texts: passwords, tokens, user names and keys are not
    displayed, unless by a library whose text follows one of these. *)
Theorem C114_known : exists known : list bytes, forall T x t, shows T x t ->
  In t known \/
  (exists p u, In p known /\ t = p ++ u /\ (utf8_shows u \/ tx_prep T u \/ tx_gss T u)) \/
  (exists n, x = EBoxed n /\ tx_boxed T n t) \/
  (exists name, x = EMissingChannelBindingData name /\
    t = lit "channel binding data for '" ++ name ++ lit "' is required").
Proof. exact (ex_intro _ known all_known). Qed.
Print Assumptions C114_known.

(** So is an error about the name of a mechanism. *)
Theorem C114_mechname : forall x, printable (mn_text x).
Proof. exact mn_printable. Qed.
Print Assumptions C114_mechname.

Definition ex_texts : texts :=
  mk_texts (fun _ t => t = lit "boxed") (fun t => t = lit "prohibited character") (fun t => t = lit "gss").
Example C114_ex_texts : printable_texts ex_texts.
Proof.
  repeat split; intros; match goal with H : _ |- _ => cbn in H; subst end; apply printable_dec; reflexivity.
Qed.

(** A client names a channel binding of which there is no data. *)
Example C114_ex_missing :
  res_of (step ex_sv (ex_s true) (Some (lit "p=x-1,,n=user,r=abc")) []) =
    Err (EMissingChannelBindingData (lit "x-1")) /\
  names_binding (lit "p=x-1,,n=user,r=abc") (lit "x-1") /\
  shows ex_texts (EMissingChannelBindingData (lit "x-1")) (lit "channel binding data for 'x-1' is required").
Proof.
  split; [vm_compute; reflexivity|]. split; [|reflexivity]. split.
  - repeat (apply Forall_cons; [apply cbname_char_spec; reflexivity|]). apply Forall_nil.
  - exists (lit ",n=user,r=abc"). reflexivity.
Qed.
(** With a line break in the name there is another error, which shows its code. *)
Example C114_ex_break :
  res_of (step ex_sv (ex_s true) (Some (lit "p=x" ++ [chr 10] ++ lit "root logged in,,n=user,r=abc")) []) =
    Err (EMech (MScramParse (PeBadCBName (chr 10)))) /\
  shows ex_texts (EMech (MScramParse (PeBadCBName (chr 10))))
    (lit "internal mechanism error: failed to parse received message: channel binding name contains invalid byte 0xa").
Proof. split; [vm_compute; reflexivity|]. eexists. split; [eexists; split; [reflexivity|reflexivity]|reflexivity]. Qed.
(** The assumption about the application's own name is needed: a client displays it as it is. *)
Example C114_ex_own :
  let e := ex_env (fun _ => ex_cb [mk_entry POverrideCBType ("x"%char :: [chr 10])]) no_vcb (fun _ => None) in
  res_of (step e (ex_c Supported) None []) = Err (EMissingChannelBindingData ("x"%char :: [chr 10])).
Proof. vm_compute. reflexivity. Qed.
