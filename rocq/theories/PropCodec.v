(** C05, C06, C39: binary data and JSON text. *)
From Verif Require Import PyStr Tags Json JsonText JsonTextProofs B64 B85 Base Heap Registry LoadClass Pickler Unpickler Samples CodecProofs.
Open Scope nat_scope.

(** C05.  For every byte string, every encoder and decoder option, encode gives a text
    and decoding that text gives the same bytes. *)
Theorem C05_bytes_roundtrip :
  forall w k o uo (b : bytes) h n m cl,
  exists text s', encode w k o (S n) (VBytes b) (new_pickler h) = (Ret text, s') /\
  forall t, fst (decode w uo (S m) cl text t) = Ret (VBytes b).
Proof. exact bytes_text_roundtrip. Qed.
Print Assumptions C05_bytes_roundtrip.

(** A bytearray comes back as a new bytearray with the same content. *)
Theorem C05_bytearray_roundtrip :
  forall w k o uo (b : bytes) h l n m cl, hget h l = Some (OByteArray b) ->
  exists text s', encode w k o (S n) (VLoc l) (new_pickler h) = (Ret text, s') /\
  forall t, exists l' t', decode w uo (S m) cl text t = (Ret (VLoc l'), t') /\
                          hget (u_heap t') l' = Some (OByteArray b) /\
                          hget (u_heap t) l' = None.
Proof. exact bytearray_text_roundtrip. Qed.
Print Assumptions C05_bytearray_roundtrip.
Example C05_bytearray_case : hget [OByteArray [Ascii.zero; Ascii.one]] 0 = Some (OByteArray [Ascii.zero; Ascii.one]).
Proof. reflexivity. Qed.

(** The two binary codecs by themselves. *)
Theorem C05_base64 : forall b, b64decode (b64encode b) = b.
Proof. exact b64_roundtrip. Qed.
Print Assumptions C05_base64.
Theorem C05_base85 : forall b, b85decode (b85encode b) = b.
Proof. exact b85_roundtrip. Qed.
Print Assumptions C05_base85.

(** C06.  An object with a py/b64 (or py/b85) member and no tuple or set tag restores to
    bytes whatever the payload is; a payload that is not a string gives b"". *)
Theorem C06_binary_payload_total :
  forall w uo m ob t p,
  shas TUPLE ob = false -> shas SET_ ob = false ->
  (sget B64 ob = Some p \/ (sget B64 ob = None /\ sget B85 ob = Some p)) ->
  exists b, restore w uo (S m) (JObj ob) t = (Ret (VBytes b), t) /\
            ((forall s, p <> JStr s) -> b = []).
Proof. exact binary_payload_total. Qed.
Print Assumptions C06_binary_payload_total.
Example C06_case :
  shas TUPLE [(B64, JStr (u "!!")); (u "x", JNull)] = false /\
  shas SET_ [(B64, JStr (u "!!")); (u "x", JNull)] = false /\
  sget B64 [(B64, JStr (u "!!")); (u "x", JNull)] = Some (JStr (u "!!")).
Proof. repeat split; reflexivity. Qed.

(** A base 85 payload with a foreign character gives b"". *)
Theorem C06_base85_malformed : forall s c, In c s -> dec85 c = None -> b85decode s = [].
Proof. exact b85_bad_char. Qed.
Print Assumptions C06_base85_malformed.
Example C06_base85_case : In 34%N (u "ab""c") /\ dec85 34%N = None.
Proof. split; [simpl; auto | reflexivity]. Qed.

(** C39.  The text of a well-formed document (unique keys, valid code points, float
    tokens as printed by repr) parses back to that document. *)
Theorem C39_text_roundtrip : forall j, jwf j = true -> loads (dumps j) = Some j.
Proof. exact loads_dumps. Qed.
Print Assumptions C39_text_roundtrip.
Example C39_case : jwf (JObj [(u "a", JList [JFloat (u "1.5"); JStr [8364; 10; 128512]%N]); (u "b", JInt (-7))]) = true.
Proof. vm_compute. reflexivity. Qed.

(** C39 for strings holding lone surrogates: the two code units U+D83D U+DE00 come back as the one
    code point U+1F600, so the unrestricted claim is false; [C39_text_roundtrip] is over documents
    whose strings hold no surrogate pair. *)
Theorem C39_surrogate_pair_refuted :
  exists s s', loads (dumps (JStr s)) = Some (JStr s') /\ length s = 2 /\ length s' = 1.
Proof. exists [0xD83D; 0xDE00]%N, [0x1F600]%N. vm_compute. auto. Qed.
Print Assumptions C39_surrogate_pair_refuted.
