(** C74: what the test client has read when it returns. *)
From Coq Require Import List NArith.
From Verif Require Import Bytes Types World Session Registry Apps Interop Spec_Hear ExampleEnv ExampleScram Proof_Hear.
Import ListNotations.

(** C74: the words of a line are pieces of it, not empty and without whitespace. *)
Theorem C74_words : forall b w, In w (words b) ->
  w <> [] /\ unbroken w /\ exists pre post, b = pre ++ w ++ post.
Proof. exact words_spec. Qed.
Print Assumptions C74_words.

(** C74: whatever the server sends, the test client returns only the last of the lines it has
    read, all of which were text; the first one lists the mechanism. *)
Theorem C74_outcome : forall e a mech ls o,
  hears (test_client e a mech) TcMechs ls (TcReturned o) ->
  exists list mids, ls = LText list :: map LText mids ++ [LText o] /\ In mech (words list).
Proof. exact outcome_lines. Qed.
Print Assumptions C74_outcome.

Example C74_words_example :
  words (lit " PLAIN  LOGIN" ++ [chr 9] ++ lit "X" ++ [chr 194; chr 160] ++ lit "Y ") =
  [lit "PLAIN"; lit "LOGIN"; lit "X"; lit "Y"].
Proof. vm_compute. reflexivity. Qed.

(** A LOGIN exchange. *)
Example C74_outcome_example :
  hears (test_client ex_empty (credentials_app (lit "user") (lit "secret")) (lit "LOGIN")) TcMechs
    [LText (lit "PLAIN LOGIN"); LText (lit "VXNlciBOYW1lAA=="); LText (lit "UGFzc3dvcmQA"); LText (lit "OK")]
    (TcReturned (lit "OK")).
Proof.
  repeat (first [ eapply hears_write; [vm_compute; reflexivity|]
                | eapply hears_line; [reflexivity|]
                | apply hears_exit; reflexivity ]).
Qed.
