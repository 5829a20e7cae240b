(** Two programs connected to each other. *)
From Coq Require Import List.
From Verif Require Import Bytes Utf8 Interop.

(** A text that [lines] returns as it is when it is sent followed by a newline. *)
Definition one_line (l : bytes) : Prop :=
  ~ In (chr 10) l /\ ~ In (chr 13) l /\ utf8_valid l = true.

(** A program receives these lines and sends this text, whatever the other program does. *)
Inductive talks {S R} (p : S -> act S R) : S -> list lineres -> bytes -> S -> Prop :=
| TalkRefl s : talks p s [] [] s
| TalkWrite s s1 s2 ls x out : p s = AWrite x s1 -> talks p s1 ls out s2 ->
    talks p s ls (x ++ out) s2
| TalkLine s k l ls out s2 : p s = ALine k -> talks p (k l) ls out s2 ->
    talks p s (l :: ls) out s2.

Section Net.
Context {S T R Q : Type} (left : S -> act S R) (right : T -> act T Q).

(** The states of the two programs and what is on its way to each. *)
Record net := mk_net { n_left : S; n_right : T; n_to_right : bytes; n_to_left : bytes }.

Definition exited {X Y} (p : X -> act X Y) (x : X) : bool :=
  match p x with AExit _ => true | _ => false end.

(** One of them writes, or reads a line that has arrived. *)
Inductive nstep : net -> net -> Prop :=
| NLeftWrite s t a b x s' : left s = AWrite x s' ->
    nstep (mk_net s t a b) (mk_net s' t (a ++ x) b)
| NLeftLine s t a b k l b' : left s = ALine k -> take_line (exited right t) b = Some (l, b') ->
    nstep (mk_net s t a b) (mk_net (k l) t a b')
| NRightWrite s t a b x t' : right t = AWrite x t' ->
    nstep (mk_net s t a b) (mk_net s t' a (b ++ x))
| NRightLine s t a b k l a' : right t = ALine k -> take_line (exited left s) a = Some (l, a') ->
    nstep (mk_net s t a b) (mk_net s (k l) a' b).

(** A run of so many steps, in any order the two programs can be scheduled in. *)
Inductive nsteps : nat -> net -> net -> Prop :=
| NRefl n : nsteps 0 n n
| NStep k n n1 n2 : nstep n n1 -> nsteps k n1 n2 -> nsteps (1 + k) n n2.

(** Both have ended, with these results, and have not read [a] and [b] respectively. *)
Definition ended (n : net) (r : R) (q : Q) (a b : bytes) : Prop :=
  left (n_left n) = AExit r /\ right (n_right n) = AExit q /\ n_to_left n = a /\ n_to_right n = b.

(** Started in [s] and [t], both always end like that: there is a number of steps so that every
    run is the beginning of a run of exactly that length to that end. *)
Definition always_end (s : S) (t : T) (r : R) (q : Q) (a b : bytes) : Prop :=
  exists k, forall m n, nsteps m (mk_net s t [] []) n ->
    m <= k /\ exists n', nsteps (k - m) n n' /\ ended n' r q a b.
End Net.
