(** Property theorems C01 - C03: Corda files.  Specification: SpecFile.v. *)
From Verif Require Import Base CordaFile SpecFile CordaFileProofs.
Open Scope string_scope.

(** C01.  [reachable]: made from a blob or by opening a file.  Size and bytes
    always survive; the encoding marker survives when it was DATA_AND_STOP. *)
Theorem C01_file_round_trip_partial : forall cb c,
  good_config c -> reachable cb -> fits (magic ++ String nul (cb_bytes cb)) ->
  exists cb', open_ (toFile cb) c = Ret cb' /\
    cb_bytes cb' = cb_bytes cb /\ cb_size cb' = cb_size cb /\ cb_encoding cb' = DATA_AND_STOP.
Proof. exact toFile_open. Qed.
Print Assumptions C01_file_round_trip_partial.

(** For blobs made by this library the round trip is exact. *)
Theorem C01_blob_round_trip : forall encoded c,
  good_config c -> fits (magic ++ String nul encoded) ->
  open_ (toFile (of_blob encoded)) c = Ret (of_blob encoded).
Proof. exact blob_round_trip. Qed.
Print Assumptions C01_blob_round_trip.

(** A stream loaded with another marker is written back with marker 0. *)
Theorem C01_marker_refuted : exists cb c cb',
  good_config c /\ reachable cb /\ open_ (toFile cb) c = Ret cb' /\ cb_encoding cb' <> cb_encoding cb.
Proof. exact marker_lost. Qed.
Print Assumptions C01_marker_refuted.

Example C01_ex : reachable (of_blob "abc") /\ good_config default_config /\
  fits (magic ++ String nul "abc").
Proof. split; [constructor|split]; unfold fits, good_config; simpl; reflexivity || auto. Qed.

(** C02 *)
Theorem C02_header_checked : forall c bytes,
  good_config c -> ignoreHeader c = false -> fits bytes -> 8 <= String.length bytes ->
  (exists e body cb, corda_stream bytes e body /\ open_ (File bytes) c = Ret cb /\ loaded cb e body) \/
  ((forall e body, ~ corda_stream bytes e body) /\ open_ (File bytes) c = Exc RuntimeError).
Proof. exact open_checked. Qed.
Print Assumptions C02_header_checked.

Theorem C02_header_ignored : forall c bytes,
  good_config c -> ignoreHeader c = true -> fits bytes -> 8 <= String.length bytes ->
  (exists e body cb, headed_stream bytes e body /\ open_ (File bytes) c = Ret cb /\ loaded cb e body) \/
  ((forall e body, ~ headed_stream bytes e body) /\ open_ (File bytes) c = Exc RuntimeError).
Proof. exact open_unchecked. Qed.
Print Assumptions C02_header_ignored.

Example C02_ex : exists cb,
  open_ (File (magic ++ String "001" "xyz")) default_config = Ret cb /\ cb_bytes cb = "xyz".
Proof. eexists. split; reflexivity. Qed.

(** C03.  Exactly which files shorter than eight bytes make the constructor use
    the uninitialised encoding byte: with header checking off, all of them;
    with it on, the magic alone and the magic without its final zero. *)
Theorem C03_short_files_partial : forall c bytes, good_config c -> String.length bytes < 8 ->
  open_ (File bytes) c =
    if ignoreHeader c then Undef
    else if String.eqb bytes magic || String.eqb bytes ("corda" ++ String "001" "") then Undef
    else Exc RuntimeError.
Proof. exact open_short. Qed.
Print Assumptions C03_short_files_partial.

(** A file that does not exist is always reported; one that cannot be read is
    when the header is checked, but not when it is ignored. *)
Theorem C03_missing_file : forall c, good_config c -> open_ NoFile c = Exc RuntimeError.
Proof. exact open_missing. Qed.
Print Assumptions C03_missing_file.

Theorem C03_unreadable_file_partial : forall c size, good_config c ->
  open_ (Unreadable size) c = if ignoreHeader c then Undef else Exc RuntimeError.
Proof. exact open_unreadable. Qed.
Print Assumptions C03_unreadable_file_partial.
Example C03_ex : good_config default_config /\ good_config {| ignoreHeader := true; header := 0 |}.
Proof. unfold good_config, AMQP_DEFAULT. simpl. split; repeat constructor. Qed.

Theorem C03_truncated_refuted : exists bytes,
  String.length bytes < 8 /\ open_ (File bytes) default_config = Undef.
Proof. exact truncated_bad. Qed.
Print Assumptions C03_truncated_refuted.
