(** Specification of the Corda file format: seven magic bytes, one encoding
    byte, then the encoded value. *)
From Coq Require Import List String Ascii NArith.
From Verif Require Import Base CordaFile.
Open Scope string_scope.

Definition magic : string := "corda" ++ String "001" (String "000" "").

Definition marker (e : section_id) : ascii :=
  match e with
  | DATA_AND_STOP => "000" | ALT_DATA_AND_STOP => "001" | ENCODING => "002"
  end.

(** [bytes] is a Corda stream with this encoding marker and this body. *)
Definition corda_stream (bytes : string) (e : section_id) (body : string) : Prop :=
  bytes = magic ++ String (marker e) body.

(** The same with any seven bytes in place of the magic. *)
Definition headed_stream (bytes : string) (e : section_id) (body : string) : Prop :=
  exists h, String.length h = 7 /\ bytes = h ++ String (marker e) body.

(** What one holds after loading. *)
Definition loaded (cb : CordaBytes) (e : section_id) (body : string) : Prop :=
  cb_encoding cb = e /\ cb_bytes cb = body /\ cb_size cb = N.of_nat (String.length body).

(** The header index of the configuration is one of the two known ones. *)
Definition good_config (c : AMQPConfig) : Prop := header c <= AMQP_DEFAULT.

(** Sizes a file system can report (off_t is a signed 64 bit number). *)
Definition fits (s : string) : Prop := (N.of_nat (String.length s) < 2 ^ 63)%N.

(** Every blob an object of class CordaBytes can hold has its true size; it was
    made from a blob or by opening a file. *)
Inductive reachable : CordaBytes -> Prop :=
| reach_blob s : fits s -> reachable (of_blob s)
| reach_file f c cb : good_config c -> match f with File b => fits b | _ => True end ->
    open_ f c = Ret cb -> reachable cb.

