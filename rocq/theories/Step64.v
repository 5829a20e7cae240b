(** session.rs:228-245 Session::step64 with any writer: what the step writes goes through base64's
    EncoderWriter. Session.v has the short form for writers that accept everything. *)
From Verif Require Import Bytes Base64 Types World Simple OAuth Scram Gssapi Session.

(** * base64 0.22.1 write::EncoderWriter (third-party code, not in /repo; modelled after its
      documentation and published source)

    Bytes that do not fill a group of three are kept back, as is encoded output the underlying
    writer did not take. *)
Record enc := mk_enc { en_extra : bytes; en_out : bytes }.
Definition enc_new : enc := mk_enc [] [].

(** One [write] of the underlying writer: its answer with the number of bytes it took, what it took,
    and the rest of its script. *)
Definition give (data : bytes) (ds : list wresp) : wresp * bytes * list wresp :=
  match ds with
  | [] => (WAccept (length data), data, [])
  | WAccept n :: r => (WAccept (Nat.min n (length data)), firstn n data, r)
  | x :: r => (x, [], r)
  end.

(** The buffer holds the encoding of 256 groups. *)
Definition enc_groups : nat := 256.

(** [EncoderWriter::write] of a non-empty buffer. Output that is still there is offered to the
    underlying writer first, and no input taken (Ok(0)). Otherwise complete groups are encoded and
    offered in one call, taken as input whether or not all of the encoding was accepted; nothing is
    taken if the call fails. *)
Definition enc_write (en : enc) (buf : bytes) (ds : list wresp)
  : wresp * enc * bytes * list wresp :=
  match en_out en with
  | _ :: _ =>
      match give (en_out en) ds with
      | (WAccept k, sent, r) => (WAccept 0, mk_enc (en_extra en) (skipn k (en_out en)), sent, r)
      | (x, sent, r) => (x, en, sent, r)
      end
  | [] =>
      let all := en_extra en ++ buf in
      if Nat.ltb (length all) 3 then (WAccept (length buf), mk_enc all [], [], ds)
      else
        let n := 3 * Nat.min (length all / 3) enc_groups in
        let out := encode (firstn n all) in
        match give out ds with
        | (WAccept k, sent, r) =>
            (WAccept (n - length (en_extra en)), mk_enc [] (skipn k out), sent, r)
        | (x, sent, r) => (x, en, sent, r)
        end
  end.

(** [write_all_encoded_output]: until nothing is left or the writer fails. *)
Fixpoint drain (out : bytes) (ds : list wresp) : bool * bytes * list wresp :=
  match out with
  | [] => (true, [], ds)
  | _ =>
      match ds with
      | [] => (true, out, [])
      | WAccept n :: r => match drain (skipn n out) r with
                          | (ok, sent, r') => (ok, firstn n out ++ sent, r')
                          end
      | WFail _ :: r => (false, [], r)
      | WInterrupt :: r => drain out r
      end
  end.

(** [Drop]: [write_final_leftovers], whose errors are ignored. step64 does not call [finish]. *)
Definition enc_drop (en : enc) (ds : list wresp) : bytes :=
  match drain (en_out en) ds with
  | (false, sent, _) => sent
  | (true, sent, r) => match drain (encode (en_extra en)) r with (_, sent', _) => sent ++ sent' end
  end.

(** A sequence of writes: the answers, the input taken, what the underlying writer received. *)
Fixpoint enc_writes (en : enc) (bufs : list bytes) (ds : list wresp)
  : list wresp * bytes * enc * bytes * list wresp :=
  match bufs with
  | [] => ([], [], en, [], ds)
  | b :: bs =>
      match enc_write en b ds with
      | (x, en', sent, r) =>
          match enc_writes en' bs r with
          | (xs, took, en'', sent', r') =>
              (x :: xs, match x with WAccept k => firstn k b | _ => [] end ++ took,
               en'', sent ++ sent', r')
          end
      end
  end.

(** A step whose calls to its writer are answered [answers], no more and no fewer. *)
Definition answered (e : env) (s : session) (input : option bytes) (answers : list wresp)
  (r : res serr state) (out : bytes) (s' : session) : Prop :=
  forall more,
    mech_step e input (s_mech s) (mk_world [] (answers ++ more) (s_trace s) (s_rng s) (s_val s))
    = (r, s_mech s', mk_world out more (s_trace s') (s_rng s') (s_val s')).

(** [step64] with a writer that goes by the script [ds]. Which parts of a message a mechanism offers
    in one call is left open ([bufs]): EncoderWriter has no [write_vectored] of its own, so that
    vectored writes offer the first non-empty buffer. Nothing writes empty buffers: [write_all] does
    not call the writer for one, and all vectored messages begin with a literal. *)
Definition step64_via (e : env) (s : session) (input : option bytes) (ds : list wresp)
  (r : res serr state) (sent : bytes) (s' : session) : Prop :=
  let through i := exists bufs answers took en sent1 ds1,
    Forall (fun b => b <> []) bufs /\
    enc_writes enc_new bufs ds = (answers, took, en, sent1, ds1) /\
    answered e s i answers r took s' /\ sent = sent1 ++ enc_drop en ds1 in
  match input with
  | None => through None
  | Some x => match decode x with
              | None => r = Err EBase64 /\ sent = [] /\ s' = s
              | Some i => through (Some i)
              end
  end.
