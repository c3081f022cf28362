(** Specification only: a small part of Python's expression grammar (names,
    attributes, calls, subscripts, strings, bytes, numbers, tuples, lists, dictionaries,
    sets; keywords such as [None] count as names) read from text, and module files consisting of assignments. Written
    without any function of the model of paradigm. The reader accepts a subset
    of what Python accepts, and gives it Python's meaning. *)
From Verif Require Import Base PyText PyNumbers.

Inductive expr :=
| EName (name : pystr)
| EAttribute (value : expr) (name : pystr)
| ECall (function : expr) (args : list (option pystr * expr))
| ESubscript (value index : expr)
| EString (s : pystr)
| EInt (z : Z)
| EFloat (x : decimal)
| EImaginary (x : decimal)
| EBytes (bs : pystr)
| ETuple (elements : list expr)
| EList (elements : list expr)
| EDict (items : list (expr * expr))
| ESet (elements : list expr).

(** One entry between brackets: [value], [key=value] or [value: second] *)
Record item := mk_item { i_keyword : option pystr; i_value : expr; i_second : option expr }.

Definition is_space (c : N) : bool := (c == 32%N) || (c == NEWLINE) || (c == 9%N).
Definition is_letter (c : N) : bool :=
  (((65 <=? c) && (c <=? 90)) || ((97 <=? c) && (c <=? 122)) || (c =? 95) || (128 <=? c))%N.
Definition is_ident_char (c : N) : bool := is_letter c || is_digit c.
Definition is_identifier (s : pystr) : bool :=
  match s with [] => false | c :: r => is_letter c && forallb is_ident_char r end.

Definition skip (s : pystr) : pystr := snd (span is_space s).

(** The forms an entry must have in each kind of bracket *)
Fixpoint plain_items (its : list item) : option (list expr) :=
  match its with
  | [] => Some []
  | mk_item None e None :: r => option_map (cons e) (plain_items r)
  | _ => None
  end.
Fixpoint pair_items (its : list item) : option (list (expr * expr)) :=
  match its with
  | [] => Some []
  | mk_item None k (Some v) :: r => option_map (cons (k, v)) (pair_items r)
  | _ => None
  end.
Fixpoint call_items (its : list item) : option (list (option pystr * expr)) :=
  match its with
  | [] => Some []
  | mk_item k e None :: r => option_map (cons (k, e)) (call_items r)
  | _ => None
  end.

(** [(...)]; the flag tells whether there was a comma *)
Definition parenthesised (its : list item) (comma : bool) : option expr :=
  match plain_items its with
  | Some [e] => Some (if comma then ETuple [e] else e)
  | Some es => Some (ETuple es)
  | None => None
  end.
(** [{...}] *)
Definition braced (its : list item) : option expr :=
  match its with
  | [] => Some (EDict [])
  | mk_item _ _ None :: _ => option_map ESet (plain_items its)
  | _ => option_map EDict (pair_items its)
  end.
(** [f[...]] *)
Definition subscripted (f : expr) (its : list item) (comma : bool) : option expr :=
  match plain_items its with
  | None | Some [] => None
  | Some [e] => Some (ESubscript f (if comma then ETuple [e] else e))
  | Some es => Some (ESubscript f (ETuple es))
  end.

Definition read_number (s : pystr) : option (expr * pystr) :=
  match read_numeral s with
  | Some (Integer n, r) => Some (EInt (Z.of_N n), r)
  | Some (Float x, r) => Some (EFloat x, r)
  | Some (Imaginary x, r) => Some (EImaginary x, r)
  | None => None
  end.

Definition is_number (e : expr) : bool := match e with EInt _ | EFloat _ | EImaginary _ => true | _ => false end.

Definition with_rest {A B} (f : A -> option B) (x : option (A * pystr)) : option (B * pystr) :=
  match x with
  | Some (a, r) => match f a with Some b => Some (b, r) | None => None end
  | None => None
  end.

(** A name, or a bytes literal: [b] and a string *)
Definition read_word (s : pystr) : option (expr * pystr) :=
  let name := fst (span is_ident_char s) in
  match snd (span is_ident_char s) with
  | q :: r =>
      if (name == $"b") && ((q == QUOTE) || (q == DOUBLE_QUOTE)) then
        with_rest (fun x => Some (EBytes x)) (read_bytes q Plain_char r)
      else Some (EName name, q :: r)
  | [] => Some (EName name, [])
  end.

(** [fuel] bounds the depth of recursion only; see [reads]. *)
Fixpoint read (fuel : nat) (s : pystr) : option (expr * pystr) :=
  match fuel with
  | O => None
  | S fuel =>
      match s with
      | [] => None
      | c :: r =>
          match
            (if (c == QUOTE) || (c == DOUBLE_QUOTE) then
               with_rest (fun x => Some (EString x)) (read_string c Plain_char r)
             else if is_digit c then read_number s
             else if c == 45%N then
               with_rest (fun e => match e with EInt z => Some (EInt (- z)) | _ => None end) (read_number r)
             else if is_letter c then read_word s
             else if c == 40%N then
               with_rest (fun x => parenthesised (fst x) (snd x)) (read_items fuel 41 r)
             else if c == 91%N then
               with_rest (fun x => option_map EList (plain_items (fst x))) (read_items fuel 93 r)
             else if c == 123%N then
               with_rest (fun x => braced (fst x)) (read_items fuel 125 r)
             else None)
          with
          | Some (e, r) => read_trailers fuel e r
          | None => None
          end
      end
  end
with read_trailers (fuel : nat) (e : expr) (s : pystr) : option (expr * pystr) :=
  match fuel with
  | O => None
  | S fuel =>
      match s with
      | [] => Some (e, [])
      | c :: r =>
          if c == 46%N then
            let name := fst (span is_ident_char r) in
            if is_identifier name && negb (is_number e)   (* [1.x] is no attribute *)
            then read_trailers fuel (EAttribute e name) (snd (span is_ident_char r))
            else None
          else if c == 40%N then
            match with_rest (fun x => option_map (ECall e) (call_items (fst x))) (read_items fuel 41 r) with
            | Some (e', r') => read_trailers fuel e' r'
            | None => None
            end
          else if c == 91%N then
            match with_rest (fun x => subscripted e (fst x) (snd x)) (read_items fuel 93 r) with
            | Some (e', r') => read_trailers fuel e' r'
            | None => None
            end
          else Some (e, s)
      end
  end
with read_items (fuel : nat) (close : N) (s : pystr) : option ((list item * bool) * pystr) :=
  match fuel with
  | O => None
  | S fuel =>
      match skip s with
      | [] => None
      | c :: r =>
          if c == close then Some (([], false), r)
          else
            match read_item fuel (c :: r) with
            | None => None
            | Some (it, r') =>
                match skip r' with
                | [] => None
                | d :: r'' =>
                    if d == close then Some (([it], false), r'')
                    else if d == 44%N then
                      match read_items fuel close r'' with
                      | Some ((its, _), r3) => Some ((it :: its, true), r3)
                      | None => None
                      end
                    else None
                end
            end
      end
  end
with read_item (fuel : nat) (s : pystr) : option (item * pystr) :=
  match fuel with
  | O => None
  | S fuel =>
      let name := fst (span is_ident_char s) in
      match snd (span is_ident_char s) with
      | [] => None
      | c :: r =>
          if is_identifier name && (c == 61%N) then
            with_rest (fun e => Some (mk_item (Some name) e None)) (read fuel r)
          else
            match read fuel s with
            | None => None
            | Some (e, r') =>
                match skip r' with
                | [] => None
                | d :: r'' =>
                    if d == 58%N then
                      with_rest (fun e2 => Some (mk_item None e (Some e2))) (read fuel (skip r''))
                    else Some (mk_item None e None, r')
                end
            end
      end
  end.

(** The whole text is the expression [e]. *)
Definition reads (text : pystr) (e : expr) : Prop :=
  exists n, forall fuel, n <= fuel -> read fuel text = Some (e, []).

(** ** The same grammar as a relation: the texts of an expression, with any
    layout *)
Definition blank (w : pystr) : Prop := forallb is_space w = true.

Inductive shows (printable : N -> bool) : expr -> pystr -> Prop :=
| sh_name n : is_identifier n = true -> shows printable (EName n) n
| sh_attribute e t n : shows printable e t -> is_identifier n = true ->
    is_number e = false ->
    shows printable (EAttribute e n) (t ++ 46%N :: n)
| sh_call f t its b body args : shows printable f t -> shows_items printable its b body ->
    call_items its = Some args ->
    shows printable (ECall f args) (t ++ 40%N :: body ++ [41%N])
| sh_subscript f t its b body e : shows printable f t -> shows_items printable its b body ->
    subscripted f its b = Some e ->
    shows printable e (t ++ 91%N :: body ++ [93%N])
| sh_string s : valid_str s -> shows printable (EString s) (repr_str printable s)
| sh_int z : shows printable (EInt z) (repr_int z)
| sh_float x : proper_decimal x -> shows printable (EFloat x) (repr_float x)
| sh_imaginary x : proper_decimal x -> shows printable (EImaginary x) (repr_imaginary x)
| sh_bytes bs : valid_bytes bs -> shows printable (EBytes bs) (repr_bytes bs)
| sh_parentheses its b body e : shows_items printable its b body -> parenthesised its b = Some e ->
    shows printable e (40%N :: body ++ [41%N])
| sh_list its b body es : shows_items printable its b body -> plain_items its = Some es ->
    shows printable (EList es) (91%N :: body ++ [93%N])
| sh_braces its b body e : shows_items printable its b body -> braced its = Some e ->
    shows printable e (123%N :: body ++ [125%N])
with shows_items (printable : N -> bool) : list item -> bool -> pystr -> Prop :=
| si_nil w : blank w -> shows_items printable [] false w
| si_one w it t w' : blank w -> shows_item printable it t -> blank w' ->
    shows_items printable [it] false (w ++ t ++ w')
| si_comma w it t w' its b body : blank w -> shows_item printable it t -> blank w' ->
    shows_items printable its b body ->
    shows_items printable (it :: its) true (w ++ t ++ w' ++ 44%N :: body)
with shows_item (printable : N -> bool) : item -> pystr -> Prop :=
| si_value e t : shows printable e t -> shows_item printable (mk_item None e None) t
| si_keyword k e t : is_identifier k = true -> shows printable e t ->
    shows_item printable (mk_item (Some k) e None) (k ++ 61%N :: t)
| si_pair e t w w' e2 t2 : shows printable e t -> blank w -> blank w' -> shows printable e2 t2 ->
    shows_item printable (mk_item None e (Some e2)) (t ++ w ++ 58%N :: w' ++ t2).

(** ** Module files: [name = expression] lines. [None]: Python raises
    (SyntaxError, NameError). *)
Fixpoint read_module (fuel : nat) (s : pystr) : option (list (pystr * expr)) :=
  match fuel with
  | O => None
  | S fuel =>
      match s with
      | [] => Some []
      | _ =>
          let name := fst (span is_ident_char s) in
          if is_identifier name then
            match snd (span (fun c => c == 32%N) (snd (span is_ident_char s))) with
            | [] => None
            | c :: r =>
                if c == 61%N then
                  match read fuel (snd (span (fun c => c == 32%N) r)) with
                  | None => None
                  | Some (e, []) => Some [(name, e)]
                  | Some (e, c :: r') =>
                      if c == NEWLINE then option_map (cons (name, e)) (read_module fuel r') else None
                  end
                else None
            end
          else None
      end
  end.
(** With enough fuel the module text has this outcome. *)
Definition module_outcome (text : pystr) (outcome : option (list (pystr * expr))) : Prop :=
  exists n, forall fuel, n <= fuel -> read_module fuel text = outcome.
