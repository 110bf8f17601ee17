(** Outcomes of C++ code and small string helpers.

    Nothing in this file models a particular function of /repo; it is the
    vocabulary the other model files use. *)
From Coq Require Export List ZArith NArith Ascii String Bool.
Export ListNotations.

(** C++ exceptions that the modelled code can throw.  The message text is
    dropped (simplification); the C++ class is kept because the command line
    tools of /repo/bin catch [std::runtime_error] only
    (bin/schema-dumper/main.cxx:56). *)
Inductive exn : Type :=
| RuntimeError          (* std::runtime_error *)
| OutOfRange            (* std::out_of_range from substr / map::at *)
| BadCast               (* std::bad_cast from a reference dynamic_cast *)
| LogicError.           (* std::logic_error *)

(** Result of a computation without state. *)
Inductive res (A : Type) : Type :=
| Ret (a : A)
| Exc (e : exn)
| Abrt                  (* failed assert *)
| Undef                 (* undefined behaviour *)
| NoFuel.               (* recursion bound of the model exhausted *)
Arguments Ret {A} a.
Arguments Exc {A} e.
Arguments Abrt {A}.
Arguments Undef {A}.
Arguments NoFuel {A}.

Definition rbind {A B} (m : res A) (f : A -> res B) : res B :=
  match m with
  | Ret a => f a
  | Exc e => Exc e
  | Abrt => Abrt
  | Undef => Undef
  | NoFuel => NoFuel
  end.

(** Result of a computation that works on a state (a [pn_data_t], a factory).
    [Throw] keeps the state at the point of the throw so that the destructors
    of enclosing scopes can run on it. *)
Inductive outcome (S A : Type) : Type :=
| Ok (a : A) (s : S)
| Throw (e : exn) (s : S)
| Abort
| UB
| Fuel.
Arguments Ok {S A} a s.
Arguments Throw {S A} e s.
Arguments Abort {S A}.
Arguments UB {S A}.
Arguments Fuel {S A}.

Definition ret {S A} (a : A) : S -> outcome S A := fun s => Ok a s.
Definition throw {S A} (e : exn) : S -> outcome S A := fun s => Throw e s.
Definition ub {S A} : S -> outcome S A := fun _ => UB.
Definition abort {S A} : S -> outcome S A := fun _ => Abort.
Definition bind {S A B} (m : S -> outcome S A) (f : A -> S -> outcome S B)
  : S -> outcome S B :=
  fun s => match m s with
           | Ok a s' => f a s'
           | Throw e s' => Throw e s'
           | Abort => Abort
           | UB => UB
           | Fuel => Fuel
           end.

(** A pure computation used inside a stateful one. *)
Definition lift {S A} (m : res A) : S -> outcome S A :=
  fun s => match m with
           | Ret a => Ok a s
           | Exc e => Throw e s
           | Abrt => Abort
           | Undef => UB
           | NoFuel => Fuel
           end.

(** [finally m d]: run [m], then the destructor [d], also when [m] throws. *)
Definition finally {S A} (m : S -> outcome S A) (d : S -> S) : S -> outcome S A :=
  fun s => match m s with
           | Ok a s' => Ok a (d s')
           | Throw e s' => Throw e (d s')
           | Abort => Abort
           | UB => UB
           | Fuel => Fuel
           end.

Declare Scope m_scope.
Delimit Scope m_scope with m.
Notation "'let!' x ':=' m 'in' k" := (bind m (fun x => k))
  (at level 61, x pattern, m at next level, right associativity) : m_scope.
Notation "m1 ';;' m2" := (bind m1 (fun _ => m2))
  (at level 61, right associativity) : m_scope.
Notation "'let?' x ':=' m 'in' k" := (rbind m (fun x => k))
  (at level 61, x pattern, m at next level, right associativity) : m_scope.
Open Scope m_scope.

(** [std::string::substr (pos, count)], e.g. SchemaUtils.cxx:61-62: throws
    [std::out_of_range] when [pos] is past the end, otherwise takes at most
    [count] characters. *)
Definition substr (s : string) (pos count : nat) : res string :=
  if Nat.leb pos (String.length s) then Ret (String.substring pos count s)
  else Exc OutOfRange.

(** [std::string::find (char)], e.g. SchemaUtils.cxx:58, starting at the
    beginning. [None] is [npos]. *)
Fixpoint find_char (c : ascii) (s : string) : option nat :=
  match s with
  | EmptyString => None
  | String d s' => if Ascii.eqb c d then Some 0
                   else match find_char c s' with
                        | Some n => Some (S n)
                        | None => None
                        end
  end.

(** Does [s] start with [p]?  ([s.find (p) == 0]) *)
Fixpoint starts_with (p s : string) : bool :=
  match p, s with
  | EmptyString, _ => true
  | String a p', String b s' => Ascii.eqb a b && starts_with p' s'
  | String _ _, EmptyString => false
  end.

(** [std::string::erase (0, find_first_not_of (' '))]: drop leading blanks. *)
Fixpoint drop_blanks (s : string) : string :=
  match s with
  | String c s' => if Ascii.eqb c " "%char then drop_blanks s' else s
  | EmptyString => EmptyString
  end.

(** Concatenate strings. *)
Definition concat_all (l : list string) : string := fold_right String.append ""%string l.

Definition nul : ascii := Ascii.ascii_of_nat 0.

(** [std::string] from a C string, PrimToSerializer.h:76: the bytes before the
    first NUL. *)
Fixpoint c_str (s : string) : string :=
  match s with
  | EmptyString => EmptyString
  | String c s' => if Ascii.eqb c nul then EmptyString else String c (c_str s')
  end.

Definition memb (x : string) (l : list string) : bool := existsb (String.eqb x) l.
