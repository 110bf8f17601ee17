(** libs/amqp/src/schema/OrderedTypeNotations.h: the groups ("levels") of type
    notations.  The std::list of std::lists is a list of lists; the iterators
    [l_] and [insertionPoint] become a split of the outer list.  [dep j p] is
    the score [j->dependsOn (p)]; computing it may fail, hence [res]. *)
From Verif Require Import Base.

Section Ordering.
  Variable T : Type.
  Variable dep : T -> T -> res nat.

  (** OrderedTypeNotations.h:161-176: one group, the [i]-th of those scanned.
      [ip] is the insertion point so far; the boolean says whether the scan
      stops ([goto done]). *)
  Fixpoint scan_level (p : T) (i : nat) (lvl : list T) (ip : nat) : res (nat * bool) :=
    match lvl with
    | [] => Ret (ip, false)
    | j :: lvl' =>
        let? score := dep j p in
        match score with
        | 1 => scan_level p i lvl' (S i)
        | 2 => Ret (i, true)
        | _ => scan_level p i lvl' ip
        end
    end.

  (** OrderedTypeNotations.h:158-178 *)
  Fixpoint scan (p : T) (i : nat) (levels : list (list T)) (ip : nat) : res nat :=
    match levels with
    | [] => Ret ip
    | lvl :: levels' =>
        let? (ip', stop) := scan_level p i lvl ip in
        if stop then Ret ip' else scan p (S i) levels' ip'
    end.

  (** OrderedTypeNotations.h:188-210: the loop over the other members of the
      group [p] was put into.  [rec] inserts into the groups behind this one
      ([insert (.., std::next (insertionPoint))]).  Result: the new groups put
      before this one, the members that stay, the groups behind.  A member with
      a score other than 0, 1 or 2 would be erased and dropped. *)
  Fixpoint shuffle (rec : T -> list (list T) -> res (list (list T)))
           (p : T) (members : list T) (pre : list (list T)) (kept : list T)
           (behind : list (list T)) : res (list (list T) * list T * list (list T)) :=
    match members with
    | [] => Ret (pre, rev kept, behind)
    | e :: members' =>
        let? score := dep p e in
        match score with
        | 0 => shuffle rec p members' pre (e :: kept) behind
        | 1 => let? behind' := rec e behind in
               shuffle rec p members' pre kept behind'
        | 2 => shuffle rec p members' (pre ++ [[e]]) kept behind
        | _ => shuffle rec p members' pre kept behind
        end
    end.

  (** OrderedTypeNotations.h:147-212.  [levels] are the groups from [l_] on.
      Recursive calls work on fewer notations, so [fuel] = number of notations
      plus one suffices (proved). *)
  Fixpoint insert_at (fuel : nat) (p : T) (levels : list (list T)) : res (list (list T)) :=
    match fuel with
    | 0 => NoFuel
    | S fuel' =>
        let? ip := scan p 0 levels 0 in
        match skipn ip levels with
        | [] => Ret (levels ++ [[p]])                         (* line 184 *)
        | lvl :: behind =>
            let? (pre, kept, behind') := shuffle (insert_at fuel') p lvl [] [] behind in
            Ret (firstn ip levels ++ pre ++ [p :: kept] ++ behind')
        end
    end.

  (** OrderedTypeNotations.h:138-142 *)
  Definition insert (p : T) (levels : list (list T)) : res (list (list T)) :=
    insert_at (S (List.length (List.concat levels))) p levels.

  (** A sequence of inserts into an empty collection. *)
  Fixpoint inserts (ps : list T) (levels : list (list T)) : res (list (list T)) :=
    match ps with
    | [] => Ret levels
    | p :: ps' => let? levels' := insert p levels in inserts ps' levels'
    end.
End Ordering.
