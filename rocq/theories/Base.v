(** Outcomes of C++ functions, and the string primitives of std::string that the
    code uses.  No property is proved here; this file is part of the model. *)
From Coq Require Export List String Ascii Bool Arith Lia.
Export ListNotations.
Open Scope string_scope.
Open Scope list_scope.
Open Scope nat_scope.

(** ** Outcomes

    Every exception class the modelled code can throw is a constructor
    (include/casbin/exception/*.h and the standard library ones). *)
Inductive exn :=
| IllegalArgument          (* include/casbin/exception/illegal_argument_exception.h *)
| CasbinRBAC               (* include/casbin/exception/casbin_rbac_exception.h *)
| CasbinEnforcer           (* include/casbin/exception/casbin_enforcer_exception.h *)
| CasbinAdapter            (* include/casbin/exception/casbin_adapter_exception.h *)
| UnsupportedOperation     (* include/casbin/exception/unsupported_operation_exception.h *)
| MissingRequiredSections  (* include/casbin/exception/missing_required_sections.h *)
| IOException              (* include/casbin/exception/io_exception.h *)
| ParserError              (* include/casbin/ip_parser/exception/parser_exception.h *)
| StdOutOfRange            (* std::out_of_range *)
| StdLogicError            (* std::logic_error *)
| StdRegexError            (* std::regex_error *)
| StdSystemError           (* std::system_error *)
| ThrownString             (* a std::string or const char* thrown as an exception *)
| OtherException.          (* any exception raised by user supplied code *)

(** Kinds of undefined behaviour made visible by the model. *)
Inductive ub :=
| NullDeref                (* dereference of a null shared_ptr *)
| OutOfBounds              (* operator[] past the end of a vector or string *)
| InvalidIterator          (* use of an invalidated iterator *)
| Uninitialised            (* read of an uninitialised variable *)
| InfiniteRecursion        (* unbounded recursion (stack overflow) *)
| LockedTwice              (* the owner locks a non recursive mutex again *)
| OutOfRange               (* atoi with a number that is not an int *)
| Unmodelled.              (* behaviour outside the model; never a normal result *)

Inductive res (A : Type) :=
| Ok (a : A)
| Throw (e : exn)
| UB (u : ub).
Arguments Ok {A} a.
Arguments Throw {A} e.
Arguments UB {A} u.

Definition bind {A B} (r : res A) (f : A -> res B) : res B :=
  match r with Ok a => f a | Throw e => Throw e | UB u => UB u end.
Notation "'let!' x := r 'in' k" := (bind r (fun x => k))
  (at level 200, x pattern, r at level 100, k at level 200).

Definition is_ok {A} (r : res A) : bool := match r with Ok _ => true | _ => false end.

(** Run a function over a list, stopping at the first exception. *)
Fixpoint mapr {A B} (f : A -> res B) (l : list A) : res (list B) :=
  match l with
  | [] => Ok []
  | x :: xs => let! y := f x in let! ys := mapr f xs in Ok (y :: ys)
  end.

(** ** std::string primitives *)

(** [c] occurs in [s] (used for find_first_of and friends). *)
Fixpoint smem (c : ascii) (s : string) : bool :=
  match s with EmptyString => false | String d s' => Ascii.eqb c d || smem c s' end.

(** s.substr(0, n) *)
Fixpoint stake (n : nat) (s : string) : string :=
  match n, s with
  | 0, _ => EmptyString
  | _, EmptyString => EmptyString
  | S n', String c s' => String c (stake n' s')
  end.

(** s.substr(n) for n <= s.size() *)
Fixpoint sdrop (n : nat) (s : string) : string :=
  match n, s with
  | 0, _ => s
  | _, EmptyString => EmptyString
  | S n', String _ s' => sdrop n' s'
  end.

(** s.find(pat): position of the first occurrence, [None] for npos. *)
Fixpoint sfind (pat s : string) : option nat :=
  if String.prefix pat s then Some 0
  else match s with
       | EmptyString => None
       | String _ s' => option_map S (sfind pat s')
       end.

(** s[i] *)
Fixpoint sget (n : nat) (s : string) : option ascii :=
  match n, s with
  | _, EmptyString => None
  | 0, String c _ => Some c
  | S n', String _ s' => sget n' s'
  end.

(** std::count(s.begin(), s.end(), c) *)
Fixpoint scount (c : ascii) (s : string) : nat :=
  match s with
  | EmptyString => 0
  | String d s' => (if Ascii.eqb c d then 1 else 0) + scount c s'
  end.

Definition nl : ascii := "010".
Definition tab : ascii := "009".
Definition vt : ascii := "011".
Definition ff : ascii := "012".
Definition cr : ascii := "013".

Definition rule := list string.

Definition rule_eqb (a b : rule) : bool :=
  if list_eq_dec string_dec a b then true else false.

(** ** Association lists standing for std::unordered_map *)
Section Assoc.
  Context {V : Type}.

  Fixpoint aget (k : string) (l : list (string * V)) : option V :=
    match l with
    | [] => None
    | (k', v) :: l' => if String.eqb k k' then Some v else aget k l'
    end.

  (** m[k] = v: overwrite in place, or append when the key is new. *)
  Fixpoint aset (k : string) (v : V) (l : list (string * V)) : list (string * V) :=
    match l with
    | [] => [(k, v)]
    | (k', v') :: l' => if String.eqb k k' then (k', v) :: l' else (k', v') :: aset k v l'
    end.

  Definition ahas (k : string) (l : list (string * V)) : bool :=
    match aget k l with Some _ => true | None => false end.

  (** emplace / insert: no effect when the key is present. *)
  Definition ainsert (k : string) (v : V) (l : list (string * V)) : list (string * V) :=
    if ahas k l then l else l ++ [(k, v)].
End Assoc.
