(** What a lattice file means, independently of the parser.

    [wr]: which token sequences spell an expression (precedence and
    associativity); [wr_file]: which spell a sequence of statements.
    [srun]: what the statements mean, evaluated with plain association lists.
    [shows]: what the resulting Config shows to lookups.

    From the model this file uses only the token type, the value trees of
    Config_Spec and the record [world] of external functions. *)
From Coq Require Import List String Ascii Bool ZArith QArith.
From Verif Require Import SMap Dbl Config_Model Config_Spec Lexer_Model Lexer_Spec Glps_Model.
Import ListNotations.
Open Scope string_scope.

(** ** Syntax *)
Inductive tree :=
| ANum (x : double) | AStr (s : string) | AVar (n : string)
| AVec (l : list tree)
| ABin (o : string) (a b : tree)
| ACall (f : string) (a : tree).   (** also unary minus, f = "-" *)

Inductive stmt :=
| SAssign (n : string) (e : tree)
| SElem (n t : string) (props : list (string * tree))
| SLine (n t : string) (members : list tree)
| SCall (f : string) (e : tree)
| SCmd (n : string).

(** [wr 0]: sums, [wr 1]: products, [wr 2]: operands. *)
Inductive wr : nat -> tree -> list token -> Prop :=
| wr_num x : wr 2 (ANum x) [KNum x]
| wr_str s : wr 2 (AStr s) [KStr s]
| wr_var n : wr 2 (AVar n) [KKw n]
| wr_call n e ts : wr 0 e ts -> wr 2 (ACall n e) (KKw n :: KLPar :: ts ++ [KRPar])
| wr_paren e ts : wr 0 e ts -> wr 2 e (KLPar :: ts ++ [KRPar])
| wr_vec l ts : wr_list l ts -> wr 2 (AVec l) (KLBrk :: ts ++ [KRBrk])
| wr_neg e ts : wr 2 e ts -> wr 2 (ACall "-" e) (KMinus :: ts)
| wr_mul a b s t : wr 1 a s -> wr 2 b t -> wr 1 (ABin "*" a b) (s ++ KMul :: t)
| wr_div a b s t : wr 1 a s -> wr 2 b t -> wr 1 (ABin "/" a b) (s ++ KDiv :: t)
| wr_add a b s t : wr 0 a s -> wr 1 b t -> wr 0 (ABin "+" a b) (s ++ KPlus :: t)
| wr_sub a b s t : wr 0 a s -> wr 1 b t -> wr 0 (ABin "-" a b) (s ++ KMinus :: t)
| wr_1 e ts : wr 2 e ts -> wr 1 e ts
| wr_0 e ts : wr 1 e ts -> wr 0 e ts
(** comma separated, with an optional comma after the last member *)
with wr_list : list tree -> list token -> Prop :=
| wr_nil : wr_list [] []
| wr_one e ts : wr 0 e ts -> wr_list [e] ts
| wr_cons e l s t : wr 0 e s -> wr_list l t -> wr_list (e :: l) (s ++ KComma :: t).

Inductive wr_props : list (string * tree) -> list token -> Prop :=
| wp_nil : wr_props [] []
| wp_cons k e l s t : wr 0 e s -> wr_props l t ->
    wr_props ((k, e) :: l) (KComma :: KKw k :: KEq :: s ++ t).

Inductive wr_stmt : stmt -> list token -> Prop :=
| ws_assign n e ts : wr 0 e ts -> wr_stmt (SAssign n e) (KKw n :: KEq :: ts ++ [KSemi])
| ws_elem n t l ts : wr_props l ts -> wr_stmt (SElem n t l) (KKw n :: KColon :: KKw t :: ts ++ [KSemi])
| ws_line n t l ts : wr_list l ts ->
    wr_stmt (SLine n t l) (KKw n :: KColon :: KKw t :: KEq :: KLPar :: ts ++ [KRPar; KSemi])
| ws_call n e ts : wr 0 e ts -> wr_stmt (SCall n e) (KKw n :: KLPar :: ts ++ [KRPar; KSemi])
| ws_cmd n : wr_stmt (SCmd n) [KKw n; KSemi].

Inductive wr_file : list stmt -> list token -> Prop :=
| wf_nil : wr_file [] []
| wf_cons s p ts us : wr_stmt s ts -> wr_file p us -> wr_file (s :: p) (ts ++ us).

(** Semantic actions that only build the syntax tree: running the parser with
    them shows which tree it assigns to a token sequence. *)
Definition ast : actions (list stmt) tree (list tree) (list tree) (list (string * tree)) :=
  mkActions (list stmt) tree (list tree) (list tree) (list (string * tree))
    (fun x => AOk (ANum x)) (fun l => AOk (AVec l)) (fun s => AOk (AStr s)) (fun _ n => AOk (AVar n))
    (fun _ o a b => AOk (ABin o a b)) (fun _ f a => AOk (ACall f a))
    [] (fun a l => AOk (a :: l)) [] (fun a l => AOk (a :: l)) [] (fun k a l => (k, a) :: l)
    (fun p n e => AOk (p ++ [SAssign n e])%list) (fun p n t l => AOk (p ++ [SElem n t l])%list)
    (fun p n t l => AOk (p ++ [SLine n t l])%list) (fun p f e => AOk (p ++ [SCall f e])%list)
    (fun p n => AOk (p ++ [SCmd n])%list).
Definition tree_of (ts : list token) : pres (list stmt) := p_all ast [] ts.

(** ** Values *)
Inductive sval :=
| SvNum (x : double) | SvVec (l : list double) | SvStr (s : string)
| SvLine (l : list string) | SvCfg (c : tcfg).

Fixpoint assoc {A} (n : string) (l : list (string * A)) : option A :=
  match l with
  | [] => None
  | (k, v) :: r => if String.eqb n k then Some v else assoc n r
  end.
Definition defined {A} (n : string) (l : list (string * A)) : bool :=
  match assoc n l with Some _ => true | None => false end.

Record sdef := mkDef { d_type : string; d_props : list (string * sval) }.
Record senv := mkEnv {
  e_vars : list (string * sval);
  e_elems : list (string * sdef);
  e_lines : list (string * list string) }.

(** The number as a rational, for finite doubles. *)
Definition qval (x : double) : Q :=
  match x with
  | S754_finite s m e =>
      let a := if (0 <=? e)%Z then inject_Z (Zpos m * 2 ^ e) else (Zpos m # Z.to_pos (2 ^ (- e)))%Q in
      if s then (- a)%Q else a
  | _ => 0%Q
  end.
(** floor *)
Definition qfloor (q : Q) : Z := (Qnum q / Zpos (Qden q))%Z.

(** The count must lie between 0 and the largest 32 bit unsigned number; a fraction
    is dropped. *)
Definition srepeat (x : double) (l : list string) : option (list string) :=
  if (dle dzero x && dle x (d_of_Z 4294967295))%bool
  then Some (List.concat (repeat l (Z.to_nat (qfloor (qval x)))))
  else None.

Definition sdiv (x y : double) : option double :=
  if is_finite (ddiv x y) then Some (ddiv x y) else None.

(** ** Functions and operators *)
Definition sapply1 (w : world) (f : string) (v : sval) : option sval :=
  match v with
  | SvNum x =>
      let r y := Some (SvNum y) in
      if String.eqb f "-" then r (dopp x) else
      if String.eqb f "sin" then r (w_sin w x) else
      if String.eqb f "cos" then r (w_cos w x) else
      if String.eqb f "tan" then r (w_tan w x) else
      if (String.eqb f "asin" || String.eqb f "arcsin")%bool then r (w_asin w x) else
      if (String.eqb f "acos" || String.eqb f "arccos")%bool then r (w_acos w x) else
      if (String.eqb f "atan" || String.eqb f "arctan")%bool then r (w_atan w x) else
      if String.eqb f "deg2rad" then r (dmul x (ddiv d_pi (d_of_Z 180))) else
      if String.eqb f "rad2deg" then r (dmul x (ddiv (d_of_Z 180) d_pi)) else None
  | SvLine l => if String.eqb f "-" then Some (SvLine (rev l)) else None
  | SvStr s =>
      if String.eqb f "parse" then option_map SvCfg (w_parse w s) else
      if (String.eqb f "file" || String.eqb f "dir")%bool then option_map SvStr (w_file w s) else
      if String.eqb f "h5file" then option_map SvStr (w_h5 w s) else None
  | _ => None
  end.
Definition sapply2 (o : string) (a b : sval) : option sval :=
  match a, b with
  | SvNum x, SvNum y =>
      if String.eqb o "+" then Some (SvNum (dadd x y)) else
      if String.eqb o "-" then Some (SvNum (dsub x y)) else
      if String.eqb o "*" then Some (SvNum (dmul x y)) else
      if String.eqb o "/" then option_map SvNum (sdiv x y) else None
  | SvNum x, SvLine l | SvLine l, SvNum x =>
      if String.eqb o "*" then option_map SvLine (srepeat x l) else None
  | _, _ => None
  end.

Definition omap2 {A B C} (f : A -> B -> option C) (x : option A) (y : option B) : option C :=
  match x, y with Some a, Some b => f a b | _, _ => None end.
Definition obind {A B} (x : option A) (f : A -> option B) : option B :=
  match x with Some a => f a | None => None end.
Definition as_num (v : sval) : option double := match v with SvNum x => Some x | _ => None end.
Definition as_line (v : sval) : option (list string) := match v with SvLine l => Some l | _ => None end.

(** A name is a variable, an element, a line or the constant pi. *)
Definition slookup (env : senv) (n : string) : option sval :=
  match assoc n (e_vars env) with
  | Some v => Some v
  | None =>
      if defined n (e_elems env) then Some (SvLine [n]) else
      match assoc n (e_lines env) with
      | Some l => Some (SvLine l)
      | None => if String.eqb n "pi" then Some (SvNum d_pi) else None
      end
  end.

Fixpoint seval (w : world) (env : senv) (e : tree) : option sval :=
  match e with
  | ANum x => Some (SvNum x)
  | AStr s => Some (SvStr s)
  | AVar n => slookup env n
  | AVec l =>
      option_map SvVec ((fix go l := match l with
                                     | [] => Some []
                                     | e :: r => omap2 (fun x y => Some (x :: y)) (obind (seval w env e) as_num) (go r)
                                     end) l)
  | ABin o a b => omap2 (sapply2 o) (seval w env a) (seval w env b)
  | ACall f a => obind (seval w env a) (sapply1 w f)
  end.

(** Members of a line: concatenated in the order written. *)
Fixpoint snames (w : world) (env : senv) (l : list tree) : option (list string) :=
  match l with
  | [] => Some []
  | e :: r => omap2 (fun x y => Some (x ++ y)%list) (obind (seval w env e) as_line) (snames w env r)
  end.
Fixpoint sprops (w : world) (env : senv) (l : list (string * tree)) : option (list (string * sval)) :=
  match l with
  | [] => Some []
  | (k, e) :: r => omap2 (fun x y => Some ((k, x) :: y)) (seval w env e) (sprops w env r)
  end.

(** Upper and lower case letters are the same in the word LINE. *)
Definition is_line_kwb (t : string) : bool :=
  match t with
  | String a (String b (String c (String d ""))) =>
      ((Ascii.eqb a "L"%char || Ascii.eqb a "l"%char) && (Ascii.eqb b "I"%char || Ascii.eqb b "i"%char)
       && (Ascii.eqb c "N"%char || Ascii.eqb c "n"%char) && (Ascii.eqb d "E"%char || Ascii.eqb d "e"%char))%bool
  | _ => false
  end.

(** ** Statements.  [None]: the file is rejected. *)
Definition sexec (w : world) (env : senv) (s : stmt) : option senv :=
  match s with
  | SAssign n e =>
      obind (seval w env e) (fun v =>
        match v with
        | SvLine _ => None
        | _ => if defined n (e_vars env) then None
               else Some (mkEnv (e_vars env ++ [(n, v)])%list (e_elems env) (e_lines env))
        end)
  | SElem n t l =>
      obind (sprops w env l) (fun ps =>
        if (String.eqb n "" || String.eqb t "" || defined n (e_elems env))%bool then None
        else Some (mkEnv (e_vars env) (e_elems env ++ [(n, mkDef t ps)])%list (e_lines env)))
  | SLine n t l =>
      obind (snames w env l) (fun ns =>
        if (negb (is_line_kwb t) || defined n (e_lines env))%bool then None
        else Some (mkEnv (e_vars env) (e_elems env) (e_lines env ++ [(n, ns)])%list))
  | SCall f e => obind (seval w env e) (fun _ => if String.eqb f "print" then Some env else None)
  | SCmd n => if String.eqb n "END" then Some env else None
  end.
Fixpoint sexecs (w : world) (env : senv) (p : list stmt) : option senv :=
  match p with
  | [] => Some env
  | s :: r => obind (sexec w env s) (fun env' => sexecs w env' r)
  end.

(** Preset variables. *)
Definition preset_val (v : tval) : option sval :=
  match v with TNum x => Some (SvNum x) | TVec l => Some (SvVec l) | TStr s => Some (SvStr s) | TCfgs _ => None end.
Fixpoint presets (vars : smap tval) : list (string * sval) :=
  match vars with
  | [] => []
  | (n, v) :: r => match preset_val v with Some x => (n, x) :: presets r | None => presets r end
  end.
Definition env0 (vars : smap tval) : senv := mkEnv (presets vars) [] [].

(** The line to use. *)
Definition last_def {A} (l : list (string * A)) : option (string * A) :=
  match rev l with x :: _ => Some x | [] => None end.
Definition sselect (env : senv) : option (string * list string) :=
  match assoc "USE" (e_elems env) with
  | Some d => option_map (pair (d_type d)) (assoc (d_type d) (e_lines env))
  | None => last_def (e_lines env)
  end.

(** The lattice: the elements of the selected line. *)
Record slattice := mkLat { l_name : string; l_elems : list (string * sdef) }.
Fixpoint sresolve (env : senv) (ns : list string) : option (list (string * sdef)) :=
  match ns with
  | [] => Some []
  | n :: r => omap2 (fun d l => Some ((n, d) :: l)) (assoc n (e_elems env)) (sresolve env r)
  end.
(** A beamline can be the value of a property only of an element that is not used. *)
Definition storable (v : sval) : bool := match v with SvLine _ => false | _ => true end.
Definition usable (d : string * sdef) : bool :=
  forallb (fun kv => match assoc (fst kv) (d_props (snd d)) with Some v => storable v | None => true end)
          (d_props (snd d)).
Definition slat (env : senv) : option slattice :=
  obind (sselect env) (fun s =>
    match snd s with
    | [] => None
    | ns => obind (sresolve env ns) (fun es => if forallb usable es then Some (mkLat (fst s) es) else None)
    end).

(** Meaning of a file: the global variables and, if asked for, the lattice. *)
Definition srun (w : world) (vars : smap tval) (lattice : bool) (p : list stmt)
  : option (list (string * sval) * option slattice) :=
  obind (sexecs w (env0 vars) p) (fun env =>
    if lattice then option_map (fun l => (e_vars env, Some l)) (slat env)
    else Some (e_vars env, None)).

(** ** What a Config shows *)
Definition shown (v : sval) : tval :=
  match v with
  | SvNum x => TNum x | SvVec l => TVec l | SvStr s => TStr s
  | SvCfg c => TCfgs [c] | SvLine _ => TCfgs []
  end.
(** An element: its own scope has "name", "type" and the properties; behind it are
    the global variables. *)
Definition shows_elem (vars : list (string * sval)) (d : string * sdef) (g : tcfg) : Prop :=
  ssorted (town g) /\ ssorted (touter g) /\
  (forall n, sfind n (town g) =
     if String.eqb n "name" then Some (TStr (fst d))
     else if String.eqb n "type" then Some (TStr (d_type (snd d)))
     else option_map shown (assoc n (d_props (snd d)))) /\
  (forall n, sfind n (touter g) = option_map shown (assoc n vars)).
Definition shows (r : list (string * sval) * option slattice) (c : tcfg) : Prop :=
  ssorted (town c) /\ touter c = [] /\
  match snd r with
  | None => forall n, sfind n (town c) = option_map shown (assoc n (fst r))
  | Some lat =>
      exists es, Forall2 (shows_elem (fst r)) (l_elems lat) es /\
      forall n, sfind n (town c) =
        if String.eqb n "elements" then Some (TCfgs es)
        else if String.eqb n "name" then Some (TStr (l_name lat))
        else option_map shown (assoc n (fst r))
  end.

(** The text [s] consists of the statements [p]. *)
Definition spells (s : string) (p : list stmt) : Prop :=
  exists ts, tokenises (list_ascii_of_string s) ts /\ wr_file p ts.

(** ** Reading the result *)
Definition tlookup (n : string) (g : tcfg) : option tval :=
  match sfind n (town g) with Some v => Some v | None => sfind n (touter g) end.
Definition elements_of (g : tcfg) : list tcfg :=
  match tlookup "elements" g with Some (TCfgs l) => l | _ => [] end.

(** ** Which definitions a list of statements contains *)
Definition is_var (vars : smap tval) (p : list stmt) (n : string) : Prop :=
  assoc n (presets vars) <> None \/ exists e, In (SAssign n e) p.
Definition is_elem (p : list stmt) (n : string) : Prop := exists t l, In (SElem n t l) p.
Definition is_line (p : list stmt) (n : string) : Prop := exists t l, In (SLine n t l) p.

(** ** Flattening of beamlines: [flat p e ns], the expression [e], read after the
    statements [p], stands for the elements [ns]. *)
Inductive flat (w : world) (vars : smap tval) : list stmt -> tree -> list string -> Prop :=
| fl_elem p n : ~ is_var vars p n -> is_elem p n -> flat w vars p (AVar n) [n]
| fl_line p1 n t ms p2 nss :
    ~ is_var vars (p1 ++ SLine n t ms :: p2)%list n -> ~ is_elem (p1 ++ SLine n t ms :: p2)%list n ->
    flats w vars p1 ms nss -> flat w vars (p1 ++ SLine n t ms :: p2)%list (AVar n) (List.concat nss)
| fl_rev p e ns : flat w vars p e ns -> flat w vars p (ACall "-" e) (rev ns)
| fl_mul_l p env e x a ns : sexecs w (env0 vars) p = Some env -> seval w env e = Some (SvNum x) ->
    dle dzero x = true -> dle x (d_of_Z 4294967295) = true -> flat w vars p a ns ->
    flat w vars p (ABin "*" e a) (List.concat (repeat ns (Z.to_nat (qfloor (qval x)))))
| fl_mul_r p env e x a ns : sexecs w (env0 vars) p = Some env -> seval w env e = Some (SvNum x) ->
    dle dzero x = true -> dle x (d_of_Z 4294967295) = true -> flat w vars p a ns ->
    flat w vars p (ABin "*" a e) (List.concat (repeat ns (Z.to_nat (qfloor (qval x)))))
with flats (w : world) (vars : smap tval) : list stmt -> list tree -> list (list string) -> Prop :=
| fls_nil p : flats w vars p [] []
| fls_cons p e l ns nss : flat w vars p e ns -> flats w vars p l nss -> flats w vars p (e :: l) (ns :: nss).

(** ** Spelling of values as tokens *)
Definition num_tokens (x : double) : list token :=
  match x with
  | S754_zero true | S754_finite true _ _ => [KMinus; KNum (dopp x)]
  | _ => [KNum x]
  end.
Fixpoint vec_tokens (l : list double) : list token :=
  match l with [] => [] | x :: r => (num_tokens x ++ KComma :: vec_tokens r)%list end.
Definition val_tokens (v : tval) : option (list token) :=
  match v with
  | TNum x => if is_finite x then Some (num_tokens x) else None
  | TVec l => if forallb is_finite l then Some (KLBrk :: vec_tokens l ++ [KRBrk])%list else None
  | TStr s => Some [KStr s]
  | TCfgs _ => None
  end.
Fixpoint assign_tokens (vars : smap tval) : option (list token) :=
  match vars with
  | [] => Some []
  | (n, v) :: r =>
      match val_tokens v, assign_tokens r with
      | Some t, Some u => Some (KKw n :: KEq :: t ++ KSemi :: u)%list
      | _, _ => None
      end
  end.

(** Trees whose binary operators exist *)
Fixpoint plain (e : tree) : bool :=
  match e with
  | ANum _ | AStr _ | AVar _ => true
  | AVec l => (fix go l := match l with [] => true | e :: r => (plain e && go r)%bool end) l
  | ABin o a b => (existsb (String.eqb o) ["+"; "-"; "*"; "/"] && plain a && plain b)%bool
  | ACall _ a => plain a
  end.

(** Binary operators as tokens; [*] and [/] bind tighter. *)
Inductive binop := BAdd | BSub | BMul | BDiv.
Definition bin_tok (o : binop) : token :=
  match o with BAdd => KPlus | BSub => KMinus | BMul => KMul | BDiv => KDiv end.
Definition bin_str (o : binop) : string :=
  match o with BAdd => "+" | BSub => "-" | BMul => "*" | BDiv => "/" end.
Definition tight (o : binop) : bool := match o with BMul | BDiv => true | _ => false end.
(** a o1 b o2 c *)
Definition grouped (o1 o2 : binop) (a b c : tree) : tree :=
  if (tight o2 && negb (tight o1))%bool
  then ABin (bin_str o1) a (ABin (bin_str o2) b c)
  else ABin (bin_str o2) (ABin (bin_str o1) a b) c.

(** Two definitions of the same thing *)
Definition same_def (a b : stmt) : Prop :=
  match a, b with
  | SAssign n _, SAssign m _ => n = m
  | SElem n _ _, SElem m _ _ => n = m
  | SLine n _ _, SLine m _ _ => n = m
  | _, _ => False
  end.

(** An entry of the operator table with this name, arity and these argument types *)
Definition op_matches (n : string) (args : list expr) (o : operation) : bool :=
  (String.eqb (op_name o) n && etypes_match (op_args o) args)%bool.
