(** Anything a user may do with a blob, in any order: inspecting, dumping its
    data or schema, and deserialising.  An exception is caught and the next operation follows. *)
From Verif Require Import Base Proton Factory Readers Blob Deserialise SchemaDump.
Import List ListNotations.

Inductive operation : Type :=
| Inspect
| DumpRaw
| DumpSchema (target : dump_target)
| Deserialise (cs : classes) (t : ctype).

Section Perform.
Context (fmt : N -> string) (custom : nat -> option string -> PM ivalue) (map_order entry_order : bool).
Context (double float : N -> string) (type_name : pn_type -> string).

Definition perform1 (fuel : nat) (o : operation) : BM unit :=
  match o with
  | Inspect => let! _ := dumpContents fmt custom map_order entry_order fuel in ret tt
  | DumpRaw => let! _ := on_data (dumpData double float fuel) in ret tt
  | DumpSchema target => let! _ := on_data (dumpSchema type_name fuel target) in ret tt
  | Deserialise cs t => let! _ := on_data (deserialise cs fuel t) in ret tt
  end.

Fixpoint perform (fuel : nat) (os : list operation) : BM unit :=
  fun st =>
    match os with
    | [] => Ok tt st
    | o :: os' =>
        match perform1 fuel o st with
        | Ok _ st' | Throw _ st' => perform fuel os' st'
        | Abort => Abort
        | UB => UB
        | Fuel => Fuel
        end
    end.
End Perform.
