(* C97: replies may say more than the .proto files declare. *)
From Coq Require Import String List NArith ZArith Arith Bool Lia ZifyN ZifyNat ZifyBool.
From Coq Require Import List.
From Verif Require Import Base SpecWire SpecGroups UnmarshalProofs SpecUnit SpecSchema Conn SpecReply SpecBroken ConnProofs ReplyProofs SpecMore MoreProofs.
From Verif Require ThmBroken.
Import ListNotations.
Open Scope N_scope.
Open Scope list_scope.

(* C97: Send, WriteOne and Authenticate give the same results when the server puts further fields and groups into its messages, and
   further messages that do not end a reply between them; the connection can be used as before. *)
Theorem C97_send : forall w32 deadline b c d, says_more w32 c d -> same_result_more w32 snd (conn_send w32 deadline b c) (conn_send w32 deadline b d).
Proof. exact conn_send_more. Qed.
Theorem C97_write_one : forall w32 deadline b c d, says_more w32 c d -> same_result_more w32 snd (write_one w32 deadline b c) (write_one w32 deadline b d).
Proof. exact write_one_more. Qed.
Theorem C97_authenticate : forall w32 deadline creds m c d, says_more w32 c d ->
  same_result_more w32 (fun e => e) (authenticate w32 deadline creds m c) (authenticate w32 deadline creds m d).
Proof. exact authenticate_more. Qed.

(* C97: but what is not made of fields and groups is no message: the reply is not taken for anything else. *)
Theorem C97_malformed : forall w32 deadline ct q ty p rest c,
  1 + nlen q < 2 ^ 32 -> can_write c -> fits w32 (ty, p) -> unread c = frame (ty, p) ++ rest -> (forall fs, ~ wire p fs) ->
  forall e, (ty = 1 /\ e = CBadError \/ ty = 12 /\ e = CBadMeta \/ ty = 3 /\ ct = 4 /\ e = CBadContinue) ->
  exists c', conn_send w32 deadline (frame (ct, q)) c = Ok (([None], Some e), c').
Proof.
  intros w32 dl ct q ty p rest c Hq Hw Hf Hu Hn e He.
  assert (D : defect w32 ct (ended (rd c)) (unread c) e).
  { rewrite Hu. destruct He as [(-> & ->)|[(-> & ->)|(-> & -> & ->)]].
    - apply Bad_error; [exact Hf|]. intros s (fs & _ & W & _). exact (Hn fs W).
    - apply Bad_meta; [exact Hf|]. intros (fs & _ & W & _). exact (Hn fs W).
    - apply Bad_challenge; [exact Hf|reflexivity|]. intros s (_ & fs & W & _). exact (Hn fs W). }
  destruct (ThmBroken.C77_each_defect_is_reported w32 dl [(ct, q)] c [None] (Some e) (unread c)) as (c' & H).
  - constructor; [exact Hq|constructor].
  - exact Hw.
  - apply Breaks; [|exists []; reflexivity]. exists [], (unread c). repeat split; try constructor. exact D.
  - exists c'. cbn [map concat] in H. rewrite app_nil_r in H. exact H.
Qed.

Print Assumptions C97_send.
Print Assumptions C97_write_one.
Print Assumptions C97_authenticate.
Print Assumptions C97_malformed.

(* The declared numbers. *)
Example declared_error : declared 1 = [1; 2; 4; 3] /\ declared 3 = [1] /\ declared 12 = [1; 2; 3; 4; 5; 6; 7; 8; 9; 10; 11; 12].
Proof. vm_compute. auto. Qed.

(* An error reply, and one of a newer server: a notice before, a message of an unknown type 99, and in the error message a field 20 at
   the beginning, and between the code and the rest a group of number 2 (the number of the code!) with a code and a group in it. *)
Definition old : list (N * bytes) := [(1, [8; 0] ++ [16; 149; 8] ++ [26; 2; 111; 104] ++ [34; 1; 72]); (17, [])].
Definition new : list (N * bytes) := [(11, [8; 1]); (99, [255]); (1, [160; 1; 7] ++ [8; 0] ++ [16; 149; 8] ++ [19; 16; 1; 59; 60; 20] ++ [26; 2; 111; 104] ++ [34; 1; 72]); (17, [255])].
Definition at_server (ms : list (N * bytes)) : conn := mkc Tcp (mkr [] [concat (map frame ms) ++ [5; 0; 0; 0]] IoEOF) [] [] [].
Definition two_requests : bytes := frame (12, [10; 1; 120]) ++ frame (12, [10; 1; 121]).

Example sample_meets : says_more false (at_server old) (at_server new).
Proof.
  split; [|cbn; auto 10]. exists old, new, [5; 0; 0; 0]. split; [vm_compute; reflexivity|]. split; [vm_compute; reflexivity|]. split.
  - apply more_messages. { split; cbn; intuition discriminate. } apply more_messages. { split; cbn; intuition discriminate. }
    apply more_fields; [|apply more_fields; [|apply more_nil]].
    + split; [reflexivity|]. intros _. cbn [fst snd].
      refine (ext_more 1 _ [] ([8; 0] ++ [16; 149; 8] ++ [19; 16; 1; 59; 60; 20] ++ [26; 2; 111; 104] ++ [34; 1; 72]) [160; 1; 7] [] [(20, WVarint 7)] _ wire_end _ _).
      * refine (ext_more 1 _ ([8; 0] ++ [16; 149; 8]) ([26; 2; 111; 104] ++ [34; 1; 72]) [19; 16; 1; 59; 60; 20] [(1, WVarint 0); (2, WVarint 1045)] [] (ext_none _ _) _ _ (Forall_nil _)).
        -- apply wire_dfields. vm_compute. reflexivity.
        -- apply ufields_wire. vm_compute. reflexivity.
      * apply wire_dfields. vm_compute. reflexivity.
      * constructor; [|constructor]. vm_compute. intuition discriminate.
    + split; [reflexivity|]. cbn. intuition discriminate.
  - split; repeat constructor; vm_compute; reflexivity.
Qed.
Example sample_computed :
  (exists c, conn_send false None two_requests (at_server old) = Ok (([Some (mkse 0 1045 [72] [111; 104]); None], None), c)) /\
  (exists c, conn_send false None two_requests (at_server new) = Ok (([Some (mkse 0 1045 [72] [111; 104]); None], None), c)).
Proof. split; eexists; vm_compute; reflexivity. Qed.
(* A group that is not closed. *)
Example open_group : forall fs, ~ wire [19; 16; 1; 59; 60] fs.
Proof. intros fs H. apply ufields_wire in H. vm_compute in H. discriminate H. Qed.
Example open_group_computed : exists c, conn_send false None (frame (12, [])) (at_server [(1, [8; 0; 16; 1; 26; 0; 34; 0; 19; 16; 1; 59; 60])]) = Ok (([None], Some CBadError), c).
Proof. eexists. vm_compute. reflexivity. Qed.
