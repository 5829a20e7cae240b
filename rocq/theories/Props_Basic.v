(** C01, C15, C19, C22. *)
From Verif Require Import Bytes Types World Base64 Mechname CallbackSpec Spec_Basic
  BytesFacts Base64Facts WorldFacts Proof_Basic.

(** C01: acceptance set and error report of Mechname::parse, for every byte string. *)
Theorem C01_mechname_exact : forall l : bytes,
  (forall r, mn_parse l = Ok r <-> r = l /\ l <> [] /\ Forall name_byte l) /\
  (mn_parse l = Err MnTooShort <-> l = []) /\
  (forall i b, mn_parse l = Err (MnInvalidChar i b) <-> first_offender l i b) /\
  mn_parse l <> Panic.
Proof. exact mechname_exact. Qed.
Print Assumptions C01_mechname_exact.

Example C01_example :
  mn_parse (lit "SCRAM-SHA-256-PLUS") = Ok (lit "SCRAM-SHA-256-PLUS") /\
  mn_parse (lit "AB c") = Err (MnInvalidChar 2 " "%char).
Proof. split; reflexivity. Qed.

(** C15: a context lookup returns the first value provided for that property. *)
Theorem C15_first_entry : forall c q v, get_ref c q = Some v <-> first_entry c q v.
Proof. exact get_ref_some. Qed.
Print Assumptions C15_first_entry.

Theorem C15_absent : forall c q, get_ref c q = None <-> Forall (fun x => projT1 x <> q) c.
Proof. exact get_ref_none. Qed.
Print Assumptions C15_absent.

(** [and] prefers its left side. *)
Theorem C15_and : forall l r q,
  get_ref (and_provider l r) q
  = match get_ref l q with Some v => Some v | None => get_ref r q end.
Proof. exact get_ref_and. Qed.
Print Assumptions C15_and.

(** Values of other properties never interfere, wherever they are provided. *)
Theorem C15_other : forall a p (x : pval p) b q,
  p <> q -> get_ref (a ++ mk_entry p x :: b) q = get_ref (a ++ b) q.
Proof. exact get_ref_other. Qed.
Print Assumptions C15_other.

Example C15_example :
  get_ref (and_provider (this_provider PAuthId (lit "l"))
             [mk_entry PAuthId (lit "r"); mk_entry PIterations 7%N]) PAuthId = Some (lit "l") /\
  get_ref (and_provider (this_provider PAuthId (lit "l"))
             [mk_entry PAuthId (lit "r"); mk_entry PIterations 7%N]) PIterations = Some 7%N.
Proof. split; reflexivity. Qed.

(** C19: whatever the sink does, it receives a prefix of the concatenated buffers, nothing
    else is touched, the count is the length of that prefix; a sink that never answers Ok(0)
    has received everything on Ok; a sink that always takes something makes it succeed. *)
Theorem C19_vectored : forall L bufs (l : L) w,
  match write_all_vectored bufs l w with
  | (r, l', w') =>
      l' = l /\ w_trace w' = w_trace w /\ w_rng w' = w_rng w /\ w_val w' = w_val w /\
      exists p q, concat bufs = p ++ q /\ w_out w' = w_out w ++ p /\
        match r with
        | Ok n => n = length p /\ (no_zero (w_script w) -> p = concat bufs)
        | Err x => exists io, x = EIo io
        | Panic => False
        end /\
        (willing (w_script w) -> r = Ok (length (concat bufs)) /\ p = concat bufs)
  end.
Proof. exact @vectored_exact. Qed.
Print Assumptions C19_vectored.

(** Short writes ending inside a buffer, on a boundary and with an empty buffer. *)
Example C19_example :
  willing [WAccept 2; WAccept 1; WAccept 9] /\
  fst (fst (write_all_vectored [lit "abc"; []; lit "de"; lit "f"] tt
              (mk_world [] [WAccept 2; WAccept 1; WAccept 9] [] 0 None))) = Ok 6 /\
  w_out (snd (write_all_vectored [lit "abc"; []; lit "de"; lit "f"] tt
              (mk_world [] [WAccept 2; WAccept 1; WAccept 9] [] 0 None))) = lit "abcdef".
Proof.
  split; [|split; reflexivity].
  repeat constructor; eexists; reflexivity.
Qed.

(** C22: base64 decoding inverts encoding and accepts canonical encodings only. *)
Theorem C22_decode_encode : forall b, decode (encode b) = Some b.
Proof. exact decode_encode. Qed.
Print Assumptions C22_decode_encode.

Theorem C22_canonical : forall s b, decode s = Some b -> s = encode b.
Proof. exact decode_canonical. Qed.
Print Assumptions C22_canonical.

Example C22_example :
  encode (lit "rsasl") = lit "cnNhc2w=" /\ decode (lit "cnNhc2w=") = Some (lit "rsasl") /\
  decode (lit "cnNhc2x=") = None /\ decode (lit "cnNhc2w") = None.
Proof. vm_compute. repeat split; reflexivity. Qed.
