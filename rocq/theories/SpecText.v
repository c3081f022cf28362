(** Specification only: reading the texts of signatures.
    - [evaluate_signature]: the value of an expression made of calls to the classes of
      models.py (by calling the constructors of the model, nothing else);
    - [read_signature]: Python's grammar of parameter lists ("Function definitions"
      in the language reference) on text, every parameter annotated. Keywords count as
      names. *)
From Verif Require Import Base Models PyText PyExpr.

(** ** Expressions over the classes of models.py *)
Section Evaluate.
Context {V : Type}.
Variable is_NONE : V -> bool.
(** what the namespace gives for other expressions *)
Variable value_of : expr -> option V.

(** The members of [ParameterKind] *)
Definition kinds_by_name : list (pystr * kind) :=
  [($"POSITIONAL_ONLY", POSITIONAL_ONLY); ($"POSITIONAL_OR_KEYWORD", POSITIONAL_OR_KEYWORD);
   ($"VARIADIC_POSITIONAL", VARIADIC_POSITIONAL); ($"KEYWORD_ONLY", KEYWORD_ONLY); ($"VARIADIC_KEYWORD", VARIADIC_KEYWORD)].
Definition evaluate_kind (e : expr) : option kind :=
  match e with
  | EAttribute (EName c) n =>
      if c == $"ParameterKind" then option_map snd (find (fun x => fst x == n) kinds_by_name) else None
  | _ => None
  end.

Definition ok {A} (r : res A) : option A := match r with Ok a => Some a | Err _ => None end.
Fixpoint keyword (k : pystr) (args : list (option pystr * expr)) : option expr :=
  match args with
  | [] => None
  | (Some k', e) :: r => if k == k' then Some e else keyword k r
  | (None, _) :: r => keyword k r
  end.
Fixpoint keywords (args : list (option pystr * expr)) : list pystr :=
  match args with
  | [] => []
  | (Some k, _) :: r => k :: keywords r
  | (None, _) :: r => keywords r
  end.
Fixpoint positionals (args : list (option pystr * expr)) : list expr :=
  match args with
  | [] => []
  | (None, e) :: r => e :: positionals r
  | (Some _, _) :: r => positionals r
  end.
(** Positional arguments first, no keyword twice, only known keywords *)
Fixpoint positionals_first (args : list (option pystr * expr)) : bool :=
  match args with
  | [] => true
  | (None, _) :: r => positionals_first r
  | (Some _, _) :: r => is_nil (positionals r)
  end.
Fixpoint no_repeat (l : list pystr) : bool :=
  match l with [] => true | x :: r => negb (mem x r) && no_repeat r end.
Definition arguments_fit (known : list pystr) (args : list (option pystr * expr)) : bool :=
  positionals_first args && no_repeat (keywords args) && forallb (fun k => mem k known) (keywords args).

Definition evaluate_string (e : expr) : option pystr :=
  match e with EString s => Some s | _ => None end.

(** The parameters' constructors take keyword arguments only (models.py:85, 170). *)
Definition evaluate_parameter (e : expr) : option (parameter V) :=
  match e with
  | ECall (EName c) args =>
      if is_nil (positionals args) && arguments_fit [$"annotation"; $"default"; $"kind"; $"name"] args then
        match keyword $"annotation" args, keyword $"kind" args, keyword $"name" args with
        | Some a, Some k, Some n =>
            match value_of a, evaluate_kind k, evaluate_string n with
            | Some a, Some k, Some n =>
                if c == $"RequiredParameter" then
                  match keyword $"default" args with
                  | None => ok (new_required a (IsKind k) n)
                  | Some _ => None
                  end
                else if c == $"OptionalParameter" then
                  match keyword $"default" args with
                  | None => ok (new_optional is_NONE a None (IsKind k) n)
                  | Some d =>
                      match value_of d with
                      | Some d => ok (new_optional is_NONE a (Some d) (IsKind k) n)
                      | None => None
                      end
                  end
                else None
            | _, _, _ => None
            end
        | _, _, _ => None
        end
      else None
  | _ => None
  end.

Fixpoint traverse {A B} (f : A -> option B) (l : list A) : option (list B) :=
  match l with
  | [] => Some []
  | a :: r => match f a, traverse f r with Some b, Some bs => Some (b :: bs) | _, _ => None end
  end.

Definition evaluate_plain (e : expr) : option (plain_signature V) :=
  match e with
  | ECall (EName c) args =>
      if (c == $"PlainSignature") && arguments_fit [$"returns"] args then
        match traverse evaluate_parameter (positionals args), keyword $"returns" args with
        | Some ps, Some r =>
            match value_of r with
            | Some r => ok (new_plain ps r)
            | None => None
            end
        | _, _ => None
        end
      else None
  | _ => None
  end.

Definition evaluate_signature (e : expr) : option (signature V) :=
  match e with
  | ECall (EName c) args =>
      if c == $"OverloadedSignature" then
        if arguments_fit [] args then
          match traverse evaluate_plain (positionals args) with
          | Some ss => ok (new_overloaded (map Plain ss))
          | None => None
          end
        else None
      else option_map Plain (evaluate_plain e)
  | _ => None
  end.
End Evaluate.

(** ** Parameter lists *)
Inductive raw :=
| RSlash
| RBareStar
| RParameter (stars : nat) (name annotation : pystr) (default : option pystr).

(** The text consumed *)
Definition consumed (s rest : pystr) : pystr := firstn (length s - length rest) s.

Definition read_named (fuel : nat) (stars : nat) (s : pystr) : option (raw * pystr) :=
  let name := fst (span is_ident_char s) in
  if is_identifier name then
    match skip (snd (span is_ident_char s)) with
    | c :: r =>
        if c == 58%N then
          match read fuel (skip r) with
          | None => None
          | Some (_, r1) =>
              let annotation := consumed (skip r) r1 in
              match skip r1 with
              | d :: r2 =>
                  if d == 61%N then
                    match read fuel (skip r2) with
                    | None => None
                    | Some (_, r3) =>
                        Some (RParameter stars name annotation (Some (consumed (skip r2) r3)), r3)
                    end
                  else Some (RParameter stars name annotation None, r1)
              | [] => Some (RParameter stars name annotation None, r1)
              end
          end
        else None
    | [] => None
    end
  else None.

Definition read_entry (fuel : nat) (s : pystr) : option (raw * pystr) :=
  match s with
  | [] => None
  | c :: r =>
      if c == 47%N then Some (RSlash, r)
      else if c == 42%N then
        match r with
        | [] => Some (RBareStar, r)
        | d :: r' =>
            if d == 42%N then read_named fuel 2 r'
            else if is_letter d then read_named fuel 1 r
            else Some (RBareStar, r)
        end
      else read_named fuel 0 s
  end.

(** Entries up to the closing parenthesis *)
Fixpoint read_entries (fuel : nat) (s : pystr) : option (list raw * pystr) :=
  match fuel with
  | O => None
  | S fuel =>
      match skip s with
      | [] => None
      | c :: r =>
          if c == 41%N then Some ([], r)
          else
            match read_entry fuel (c :: r) with
            | None => None
            | Some (x, r1) =>
                match skip r1 with
                | [] => None
                | d :: r2 =>
                    if d == 41%N then Some ([x], r2)
                    else if d == 44%N then
                      match read_entries fuel r2 with
                      | Some (xs, r3) => Some (x :: xs, r3)
                      | None => None
                      end
                    else None
                end
            end
      end
  end.

(** [( entries ) -> returns], and what follows *)
Definition read_one (fuel : nat) (s : pystr) : option ((list raw * pystr) * pystr) :=
  match s with
  | [] => None
  | c :: r =>
      if c == 40%N then
        match read_entries fuel r with
        | None => None
        | Some (xs, r1) =>
            match skip r1 with
            | a :: b :: r2 =>
                if (a == 45%N) && (b == 62%N) then
                  match read fuel (skip r2) with
                  | Some (_, r3) => Some ((xs, consumed (skip r2) r3), r3)
                  | None => None
                  end
                else None
            | _ => None
            end
        end
      else None
  end.
(** Several, between vertical bars *)
Fixpoint read_many (fuel : nat) (s : pystr) : option (list (list raw * pystr)) :=
  match fuel with
  | O => None
  | S fuel =>
      match read_one fuel s with
      | None => None
      | Some (x, r) =>
          match skip r with
          | [] => Some [x]
          | c :: r' =>
              if c == 124%N then option_map (cons x) (read_many fuel (skip r')) else None
          end
      end
  end.

(** *** The kinds the grammar gives *)
Definition described : Type := kind * pystr * pystr * option pystr.   (* kind, name, annotation, default *)
Definition d_kind (d : described) : kind := fst (fst (fst d)).
Definition d_name (d : described) : pystr := snd (fst (fst d)).
Definition d_default (d : described) : option pystr := snd d.

Fixpoint after_star (raws : list raw) : option (list described) :=
  match raws with
  | [] => Some []
  | RParameter 0 n a d :: r => option_map (cons (KEYWORD_ONLY, n, a, d)) (after_star r)
  | [RParameter 2 n a None] => Some [(VARIADIC_KEYWORD, n, a, None)]
  | _ => None
  end.
Fixpoint after_slash (raws : list raw) : option (list described) :=
  match raws with
  | [] => Some []
  | RParameter 0 n a d :: r => option_map (cons (POSITIONAL_OR_KEYWORD, n, a, d)) (after_slash r)
  | RParameter 1 n a None :: r => option_map (cons (VARIADIC_POSITIONAL, n, a, None)) (after_star r)
  | RBareStar :: r =>   (* named ones must follow *)
      match r with RParameter 0 _ _ _ :: _ => after_star r | _ => None end
  | [RParameter 2 n a None] => Some [(VARIADIC_KEYWORD, n, a, None)]
  | _ => None
  end.
Fixpoint before_slash (raws : list raw) : option (list described) :=
  match raws with
  | RSlash :: r => after_slash r
  | RParameter 0 n a d :: r => option_map (cons (POSITIONAL_ONLY, n, a, d)) (before_slash r)
  | _ => None
  end.
Definition is_slash (x : raw) : bool := match x with RSlash => true | _ => false end.
Definition is_bare_star (x : raw) : bool := match x with RBareStar => true | _ => false end.
(** [/] may not come first. *)
Definition described_by (raws : list raw) : option (list described) :=
  match raws with
  | RSlash :: _ => None
  | _ => if existsb is_slash raws then before_slash raws else after_slash raws
  end.

(** The rest of the rules: no name twice; no positional without a default after one with a
    default. *)
Definition is_positional_kind (k : kind) : Prop := k = POSITIONAL_ONLY \/ k = POSITIONAL_OR_KEYWORD.
Definition defaults_in_order (ds : list described) : Prop :=
  ForallOrdPairs (fun x y => is_positional_kind (d_kind x) -> is_positional_kind (d_kind y) ->
                             d_default y = None -> d_default x = None) ds.
Definition legal_described (ds : list described) : Prop :=
  NoDup (map d_name ds) /\ defaults_in_order ds.
