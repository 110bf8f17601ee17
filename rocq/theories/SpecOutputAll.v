(** The texts of SpecOutputMake.v where SpecOutputParse.v needs them. *)
From Verif Require Import Base OutputWriter SpecOutputWriter TypeNames Schema Factory OutputParse SpecOutputMake.
Import List ListNotations.
Open Scope string_scope.

(** [making] is what making the readers writes. *)
Definition told_in_full (env : platform) (moved : string -> string) (making : schema -> factory -> string) : tellings :=
  {| field_text := fun name type requires _ _ _ _ => lines env (property_lines moved name type requires);
     container_text := fun _ name _ _ source choices => lines env (container_lines name source choices);
     insert_text := fun t groups => lines env (insertion_lines (List.length (List.concat groups)) t groups);
     process_text := making |}.
