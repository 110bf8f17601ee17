(** Files: libs/amqp/src/CordaBytes.cxx, libs/amqp/include/AMQPHeader.h,
    AMQPSectionId.h and AMQPConfig.h. *)
From Verif Require Import Base.
Open Scope string_scope.

(** A file as the constructor, CordaBytes.cxx:19-77, meets it: stat fails; stat
    works but the stream cannot be opened; or both work and the stream delivers
    these bytes. Simplification: the file does not change between stat and the
    reads. *)
Inductive file : Type :=
| NoFile
| Unreadable (st_size : N)
| File (bytes : string).

(** AMQPHeader.h:27-29 and 31-33: both entries of AMQP_HEADERS (35-38) hold the
    same seven bytes. *)
Definition AMQP_HEADER_V1 : string := "corda" ++ String "001" (String "000" "").
Definition AMQP_HEADER_DP : string := "corda" ++ String "001" (String "000" "").
Definition AMQP_HEADERS : list string := [AMQP_HEADER_V1; AMQP_HEADER_DP].
(** AMQPHeader.h:13-19 *)
Definition AMQP_DEFAULT : nat := 1.

(** AMQPConfig.h:11-15 *)
Record AMQPConfig : Type := { ignoreHeader : bool; header : nat }.
Definition default_config : AMQPConfig := {| ignoreHeader := false; header := AMQP_DEFAULT |}.

(** AMQPSectionId.h:11-15 *)
Inductive section_id : Type := DATA_AND_STOP | ALT_DATA_AND_STOP | ENCODING.

(** The static_cast and switch of CordaBytes.cxx:62-71.  (Simplification: the
    cast of a byte above 3 is formally undefined; it is taken to keep the value,
    which the switch then rejects.) *)
Definition section_of (c : ascii) : option section_id :=
  match nat_of_ascii c with
  | 0 => Some DATA_AND_STOP
  | 1 => Some ALT_DATA_AND_STOP
  | 2 => Some ENCODING
  | _ => None
  end.

(** CordaBytes.h:24-29 (config and header index are not observable). *)
Record CordaBytes : Type := { cb_encoding : section_id; cb_size : N; cb_bytes : string }.

Definition zeros (n : nat) : string := string_of_list_ascii (repeat nul n).

(** [istream::read (buf, n)], CordaBytes.cxx:37, 60 and 76, into a zeroed
    buffer: what the buffer holds then, what is left in the stream, and whether
    all [n] bytes were there.  After a short read the stream is failed and later
    reads do nothing. *)
Definition read (n : nat) (s : string) : string * string * bool :=
  if Nat.leb n (String.length s)
  then (String.substring 0 n s, String.substring n (String.length s - n) s, true)
  else (s ++ zeros (n - String.length s), "", false).

(** CordaBytes.cxx:19-77.  [m_size] is a 64 bit unsigned number.  The encoding
    byte (line 59) is not initialised: using it after a failed read is
    undefined.  [new char[m_size]] for a wrapped size cannot be reached, the
    failed read comes first. *)
Definition open_ (f : file) (config : AMQPConfig) : res CordaBytes :=
  match nth_error AMQP_HEADERS (header config) with
  | None => Undef                       (* AMQP_HEADERS[m_header] out of range *)
  | Some h =>
      match f with
      | NoFile => Exc RuntimeError
      | Unreadable st_size =>
          if existsb (String.eqb (zeros 7)) AMQP_HEADERS || ignoreHeader config
          then Undef else Exc RuntimeError
      | File bytes =>
          let m_size := ((N.of_nat (String.length bytes) + 2 ^ 64
                          - (N.of_nat (String.length h) + 1)) mod 2 ^ 64)%N in
          let '(hdr, rest, ok) := read 7 bytes in
          if existsb (String.eqb hdr) AMQP_HEADERS || ignoreHeader config
          then
            match ok, rest with
            | true, String encoding rest' =>
                match section_of encoding with
                | Some e =>
                    let '(blob, _, _) := read (N.to_nat m_size) rest' in
                    Ret {| cb_encoding := e; cb_size := m_size; cb_bytes := blob |}
                | None => Exc RuntimeError
                end
            | _, _ => Undef
            end
          else Exc RuntimeError
      end
  end.

(** CordaBytes.cxx:81-90; [encoded] is what proton's encoder produces for the
    blob (pn_data_encode is not modelled). *)
Definition of_blob (encoded : string) : CordaBytes :=
  {| cb_encoding := DATA_AND_STOP;
     cb_size := N.of_nat (String.length encoded); cb_bytes := encoded |}.

(** CordaBytes.cxx:94-104: the contents of the file written. *)
Definition toFile (cb : CordaBytes) : file :=
  File (nth AMQP_DEFAULT AMQP_HEADERS "" ++ String nul "" ++ cb_bytes cb).

(** bin/blob-inspector/main.cxx:11-40, bin/schema-dumper/main.cxx:43-53,
    bin/data-dumper/main.cxx: only DATA_AND_STOP streams are decoded. *)
Definition decodable (cb : CordaBytes) : bool :=
  match cb_encoding cb with DATA_AND_STOP => true | _ => false end.
