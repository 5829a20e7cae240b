(** Specification vocabulary for applications that hold a lock (C121). *)
From Verif Require Import Bytes Types World.

(** A callback asked for [q] that ends by releasing a lock. That it does is seen from a last call, of
    [satisfy_with] with a closure that provides nothing. *)
Inductive releases (q : prop) : cbprog -> Prop :=
| rel_end x r : releases q (CSatisfyWith q (inl x) (fun _ => CRet r))
| rel_satisfy p v k : (forall x, releases q (k x)) -> releases q (CSatisfy p v k)
| rel_get p k : (forall x, releases q (k x)) -> releases q (CGetAction p k)
| rel_is p k : (forall x, releases q (k x)) -> releases q (CIs p k).

(** An application that takes a lock whenever its callback is asked for something, and holds it until
    it returns. *)
Definition locking (e : env) : Prop :=
  forall tr c q, releases q (e_cb e tr (e_sd e) c (RSatisfy q)).

(** Whether the lock is held after these events; [None] if a callback was called while it was. *)
Fixpoint lock (held : bool) (l : list event) : option bool :=
  match l with
  | [] => Some held
  | EvRequest _ _ :: l => if held then None else lock true l
  | EvClosure _ :: l => lock false l
  | (EvAction _ _ _ | EvValidate _ | EvChan _) :: l => if held then None else lock held l
  | (EvAnswer _ _ | EvTaken _) :: l => lock held l
  end.
