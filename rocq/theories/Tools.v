(** The command-line tools: bin/blob-inspector, bin/schema-dumper and
    bin/data-dumper. *)
From Verif Require Import Base Proton CordaFile Schema Factory Readers Blob SchemaDump.
Import List ListNotations.
Open Scope string_scope.

(** How a run ends.  [Exit code out said]: [main] returns [code], [out] is what
    [main] has written to standard output, [said] tells whether it has written
    anything to standard error (which is not modelled further).  What the library
    itself writes to standard output - debug lines, libs/corda-utils/include/
    debug.h:17-18, and "STRING", proton_wrapper.cxx:578 - is left out here; Output.v
    and OutputSchema.v have it, for data-dumper and schema-dumper.  The others: std::terminate
    after an exception that nobody catches, a failed assertion, undefined
    behaviour, and the recursion bound of the model. *)
Inductive result : Type :=
| Exit (code : nat) (out : string) (said : bool)
| Terminated
| Aborted
| Undefined
| Unended.

Definition EXIT_SUCCESS : nat := 0.
Definition EXIT_FAILURE : nat := 1.

(** [std::cout << s << std::endl] before returning EXIT_SUCCESS:
    bin/blob-inspector/main.cxx:31-39, bin/schema-dumper/main.cxx:47-55 and
    bin/data-dumper/main.cxx:35-43. *)
Definition printed_line (s : string) : result := Exit EXIT_SUCCESS (s ++ String "010" "") false.

Section Tools.
(** pn_data_decode: [Some t] if it consumes all of the bytes and they encode
    [t].  AMQPBlob.cxx:37 asserts that all are consumed. *)
Context (decode : string -> option tree).
Context (fmt : N -> string) (custom : nat -> option string -> PM ivalue) (map_order entry_order : bool).
Context (double float : N -> string) (type_name : pn_type -> string).
Context (fuel : nat).

(** AMQPBlob.cxx:29-38 *)
Definition AMQPBlob_ (cb : CordaBytes) : res data :=
  match decode (cb_bytes cb) with
  | Some t => Ret (decoded t)
  | None => Abrt
  end.

(** What becomes of an exception: nobody catches it, or it meets
    [catch (const std::runtime_error & e)] (bin/schema-dumper/main.cxx:56-59,
    bin/data-dumper/main.cxx:44-47), which writes the message to standard
    error.  std::bad_cast, std::out_of_range and std::logic_error are no runtime
    errors. *)
Definition uncaught (e : exn) : result := Terminated.
Definition caught (e : exn) : result :=
  match e with RuntimeError => Exit EXIT_FAILURE "" true | _ => Terminated end.

Definition finish {S} (thrown : exn -> result) (o : outcome S string) : result :=
  match o with
  | Ok s _ => printed_line s
  | Throw e _ => thrown e
  | Abort => Aborted
  | UB => Undefined
  | Fuel => Unended
  end.

(** Opening the file and looking at the encoding, common to the three:
    bin/schema-dumper/main.cxx:43-53, bin/data-dumper/main.cxx:31-41 and
    bin/blob-inspector/main.cxx:26-37. *)
Definition with_blob (thrown : exn -> result) (f : file) (config : AMQPConfig) (dump : data -> result) : result :=
  match open_ f config with
  | Ret cb =>
      if decodable cb then
        match AMQPBlob_ cb with
        | Ret d => dump d
        | Exc e => thrown e
        | Abrt => Aborted
        | Undef => Undefined
        | NoFuel => Unended
        end
      else Exit EXIT_FAILURE "" true                             (* BAD ENCODING *)
  | Exc e => thrown e
  | Abrt => Aborted
  | Undef => Undefined
  | NoFuel => Unended
  end.

(** BlobInspector.cxx:18-25 *)
Definition inspector_dump (d : data) : outcome (data * factory) string :=
  (on_factory (installCustomSerialiser RPublicKey) ;;
   dumpContents fmt custom map_order entry_order fuel) (d, new_factory).

(** bin/blob-inspector/main.cxx:11-40; [argv] includes the name of the program. *)
Definition blob_inspector (fs : string -> file) (argv : list string) : result :=
  match argv with
  | [_; name] =>
      match fs name with
      | NoFile => Exit EXIT_FAILURE "" false
      | f => with_blob uncaught f {| ignoreHeader := true; header := AMQP_DEFAULT |} (fun d => finish uncaught (inspector_dump d))
      end
  | _ => Exit EXIT_FAILURE "" false
  end.

(** bin/schema-dumper/main.cxx:18-60 *)
Definition schema_dumper (fs : string -> file) (argv : list string) : result :=
  match argv with
  | [_; name; mode] =>
      match fs name with
      | NoFile => Exit EXIT_FAILURE "" false
      | f =>
          let run target := with_blob caught f default_config (fun d => finish caught (dumpSchema type_name fuel target d)) in
          if String.eqb mode "avro" then run ToAvro
          else if String.eqb mode "raw" then run ToRaw
          else Exit EXIT_FAILURE "" true
      end
  | _ => Exit EXIT_FAILURE "" true
  end.

(** bin/data-dumper/main.cxx:17-48 *)
Definition data_dumper (fs : string -> file) (argv : list string) : result :=
  match argv with
  | [_; name] =>
      match fs name with
      | NoFile => Exit EXIT_FAILURE "" false
      | f => with_blob caught f default_config (fun d => finish caught (dumpData double float fuel d))
      end
  | _ => Exit EXIT_FAILURE "" true
  end.
End Tools.
