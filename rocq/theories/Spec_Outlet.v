(** Vocabulary for how mechanisms of other crates use their writer (C129). *)
From Verif Require Import Bytes Base64 Types World Custom.

(** Code that writes with write_all only. *)
Fixpoint whole_writes {T A} (p : prog T A) : Prop :=
  match p with
  | GDone _ => True
  | GGet k => forall t, whole_writes (k t)
  | GSet _ k => whole_writes k
  | GWrite _ _ => False
  | GWriteAll _ k => forall x, whole_writes (k x)
  | GRandom k => forall x, whole_writes (k x)
  | GNeed _ _ f k => (forall v, whole_writes (f v)) /\ (forall x, whole_writes (k x))
  | GChan _ _ f k => (forall v, whole_writes (f v)) /\ (forall x, whole_writes (k x))
  | GAction _ _ _ k => forall x, whole_writes (k x)
  | GValidate _ k => forall x, whole_writes (k x)
  end.

(** Code that moreover returns at once with the error when writing, or a request for a value, fails:
    Rust's [?]. *)
Fixpoint hands_on {T A} (p : prog T A) : Prop :=
  match p with
  | GDone _ => True
  | GGet k => forall t, hands_on (k t)
  | GSet _ k => hands_on k
  | GWrite _ _ => False
  | GWriteAll _ k => (forall x, k (Some x) = GDone (Err x)) /\ hands_on (k None)
  | GRandom k => forall x, hands_on (k x)
  | GNeed _ _ f k => (forall v, hands_on (f v)) /\ (forall x, k (inl x) = GDone (Err x)) /\
                     (forall o, hands_on (k (inr o)))
  | GChan _ _ f k => (forall v, hands_on (f v)) /\ (forall x, k (inl x) = GDone (Err x)) /\
                     (forall o, hands_on (k (inr o)))
  | GAction _ _ _ k => forall x, hands_on (k x)
  | GValidate _ k => forall x, hands_on (k x)
  end.

(** What a line, or its absence, stands for; lines that are no base64 stand for nothing. *)
Inductive line_for : option bytes -> option (option bytes) -> Prop :=
| lf_none : line_for None (Some None)
| lf_some b : line_for (Some (encode b)) (Some (Some b))
| lf_noise z : (forall b, z <> encode b) -> line_for (Some z) None.
