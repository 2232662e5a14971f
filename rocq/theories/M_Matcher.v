(** A small matcher language: the part of the exprtk language that casbin's
    standard matchers use.  It is an instance of [oracle] (M_Evaluator.v), used in
    examples, in witnesses of refuted properties and to show that hypotheses about
    the expression library can be met.

    Grammar, loosest first (include/casbin/exprtk/exprtk.hpp:25104-25161 for the
    precedences): disjunction, conjunction, negation and comparison; terms are
    variables and quoted strings; a role function is called with string terms.
    Not modelled: arithmetic, assignments, vectors, the built-in functions. *)
From Verif Require Import Base M_Util M_Eval M_Evaluator.

Inductive token :=
| TId (s : string) | TStr (s : string) | TAnd | TOr | TNot | TEq | TNe | TOpen | TClose | TComma | TBad.

Definition id_char (c : ascii) : bool := is_word c || Ascii.eqb c ".".

(** A quote; evaluator.cpp:35 turns double quotes into single ones. *)
Definition quote (c : ascii) : bool := Ascii.eqb c "'" || Ascii.eqb c """".

(** Text to tokens. [cur] is the identifier being read, [quoted] the string literal
    being read. *)
Fixpoint lex (cur : string) (quoted : option string) (s : string) : list token :=
  let flush := if String.eqb cur "" then [] else [TId cur] in
  match s with
  | EmptyString => flush ++ match quoted with Some _ => [TBad] | None => [] end
  | String c s' =>
      match quoted with
      | Some q => if quote c then TStr q :: lex "" None s'
                  else lex "" (Some (q ++ String c "")%string) s'
      | None =>
          if id_char c then lex (cur ++ String c "")%string None s'
          else if Ascii.eqb c " " then flush ++ lex "" None s'
          else if quote c then flush ++ lex "" (Some "") s'
          else if Ascii.eqb c "(" then flush ++ TOpen :: lex "" None s'
          else if Ascii.eqb c ")" then flush ++ TClose :: lex "" None s'
          else if Ascii.eqb c "," then flush ++ TComma :: lex "" None s'
          else match s' with
               | String d s'' =>
                   if Ascii.eqb c "&" && Ascii.eqb d "&" then flush ++ TAnd :: lex "" None s''
                   else if Ascii.eqb c "|" && Ascii.eqb d "|" then flush ++ TOr :: lex "" None s''
                   else if Ascii.eqb c "=" && Ascii.eqb d "=" then flush ++ TEq :: lex "" None s''
                   else if Ascii.eqb c "!" && Ascii.eqb d "=" then flush ++ TNe :: lex "" None s''
                   else if Ascii.eqb c "!" then flush ++ TNot :: lex "" None s'
                   else [TBad]
               | EmptyString => [TBad]
               end
      end
  end.

Inductive term := TmVar (x : string) | TmStr (s : string).
Inductive mexp :=
| MBool (b : bool)
| MEq (a b : term)
| MNe (a b : term)
| MAnd (a b : mexp)
| MOr (a b : mexp)
| MNot (a : mexp)
| MCall (f : string) (args : list term).

Definition parse_term (ts : list token) : option (term * list token) :=
  match ts with
  | TId x :: r => Some (TmVar x, r)
  | TStr s :: r => Some (TmStr s, r)
  | _ => None
  end.

Fixpoint parse_args (fuel : nat) (ts : list token) : option (list term * list token) :=
  match fuel with
  | 0 => None
  | S n => match parse_term ts with
           | Some (t, TComma :: r) =>
               match parse_args n r with Some (l, r') => Some (t :: l, r') | None => None end
           | Some (t, TClose :: r) => Some ([t], r)
           | _ => None
           end
  end.

(** [lvl] 0: disjunction, 1: conjunction, 2: atom. *)
Fixpoint parse (fuel lvl : nat) (ts : list token) : option (mexp * list token) :=
  match fuel with
  | 0 => None
  | S n =>
      match lvl with
      | 0 => match parse n 1 ts with
             | Some (a, TOr :: r) =>
                 match parse n 0 r with Some (b, r') => Some (MOr a b, r') | None => None end
             | x => x
             end
      | 1 => match parse n 2 ts with
             | Some (a, TAnd :: r) =>
                 match parse n 1 r with Some (b, r') => Some (MAnd a b, r') | None => None end
             | x => x
             end
      | _ =>
          match ts with
          | TNot :: r => match parse n 2 r with Some (a, r') => Some (MNot a, r') | None => None end
          | TOpen :: r => match parse n 0 r with
                          | Some (a, TClose :: r') => Some (a, r')
                          | _ => None
                          end
          | TId f :: TOpen :: r => match parse_args n r with
                                   | Some (l, r') => Some (MCall f l, r')
                                   | None => None
                                   end
          | TId "true" :: r => Some (MBool true, r)
          | TId "false" :: r => Some (MBool false, r)
          | _ => match parse_term ts with
                 | Some (a, TEq :: r) =>
                     match parse_term r with Some (b, r') => Some (MEq a b, r') | None => None end
                 | Some (a, TNe :: r) =>
                     match parse_term r with Some (b, r') => Some (MNe a b, r') | None => None end
                 | _ => None
                 end
          end
      end
  end.

Definition parse_matcher (s : string) : option mexp :=
  let ts := lex "" None s in
  match parse (4 * List.length ts + 4) 0 ts with
  | Some (e, []) => Some e
  | _ => None
  end.

(** Names are checked when the text is compiled. *)
Definition term_ok (vars : string -> bool) (t : term) : bool :=
  match t with TmVar x => vars x | TmStr _ => true end.
Fixpoint mexp_ok (vars : string -> bool) (funs : string -> option nat) (e : mexp) : bool :=
  match e with
  | MBool _ => true
  | MEq a b | MNe a b => term_ok vars a && term_ok vars b
  | MAnd a b | MOr a b => mexp_ok vars funs a && mexp_ok vars funs b
  | MNot a => mexp_ok vars funs a
  | MCall f args =>
      forallb (term_ok vars) args &&
      match funs f with Some n => Nat.eqb n (List.length args) | None => false end
  end.

Definition term_val (v : var_env) (t : term) : string :=
  match t with TmVar x => match v x with Some s => s | None => "" end | TmStr s => s end.
Fixpoint mexp_val (v : var_env) (g : fun_env) (e : mexp) : res bool :=
  match e with
  | MBool b => Ok b
  | MEq a b => Ok (String.eqb (term_val v a) (term_val v b))
  | MNe a b => Ok (negb (String.eqb (term_val v a) (term_val v b)))
  | MAnd a b => let! x := mexp_val v g a in if x then mexp_val v g b else Ok false
  | MOr a b => let! x := mexp_val v g a in if x then Ok true else mexp_val v g b
  | MNot a => let! x := mexp_val v g a in Ok (negb x)
  | MCall f args => match g f (map (term_val v) args) with Some r => r | None => Ok false end
  end.

Definition mini : oracle :=
  mkOracle
    (fun s vars funs => match parse_matcher s with Some e => mexp_ok vars funs e | None => false end)
    (fun s v g => match parse_matcher s with Some e => mexp_val v g e | None => Ok false end).

(** The matchers of examples/basic_model.conf and examples/rbac_model.conf. *)
Definition basic_matcher := "r.sub == p.sub && r.obj == p.obj && r.act == p.act".
Definition rbac_matcher := "g(r.sub, p.sub) && r.obj == p.obj && r.act == p.act".
