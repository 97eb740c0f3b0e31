(** A concrete host for the interpreter of [Sem]: enough of JavaScript to run the programs of the
    repository's own test fixtures (spec/fixtures/*.yaml), see [Fixtures].

    The tags of [KOther] nodes and the codes of [OpOther] operators used by the translated
    fixtures (tools/fixtures.js) are interpreted here:

    - 1 member access [object; key], 2 computed key [expression], 3 call and 5 [new]
      [callee; argument ...], 4 argument [expression]
    - 10 [=], 11 [+=], 12 [-=], 13 [*=] [target; expression]
    - 20 [x++], 21 [x--], 22 [++x], 23 [--x]; 30 unary [-], 31 [!], 32 [+]
    - 40 array, 41 object literal, 42 property [key; value], 43 spread [expression]
    - 44 [this], 46 [await], 48 private name [string], 49 parameter [pattern]
    - 50 catch clause [pattern or none; block], 52 [true], 53 [false], 54 [null], 57 empty statement, 60 a big integer as key
    - 1000 + n the number n
    - operators: 0 [+], 1 [-], 2 [*], 4 [<], 5 [>], 6 [===], 7 [!==], 8 [<=], 9 [>=]

    Not covered: generators, promises ([await] of a value that is not a promise is that value),
    fractions, the temporal dead zone, destructuring, inferred function names. *)
From Coq Require Import NArith ZArith String List Bool PeanoNat.
Import ListNotations.
From Verif Require Import Base Oxide Hints Ast Sem.
From Verif Require Import Decimal.
Open Scope string_scope. Open Scope list_scope. Open Scope N_scope.

(** ** Values, objects, scopes *)
Inductive val :=
| VUndef | VNull | VBool (b : bool) | VNum (z : Z) | VStr (s : string) | VObj (a : nat)
| VMark (s : string).   (* the key of a field or accessor, between a class and its members *)

Inductive native := NAbs | NMap | NReduce | NIndexOf | NHasOwn | NNow | NObject.

Inductive callable :=
| NotFun
| Code (f : nat) (env : nat) (arrow : bool)
| ClassOf (fields : list (string * nat)) (env : nat)
| Native (n : native).

Inductive slot := Data (v : val) | Getter (fn : nat).

Record obj := mkObj { o_props : list (string * slot); o_proto : option nat; o_call : callable; o_array : bool }.
Record scope := mkScope { s_vars : list (string * val); s_up : option nat; s_with : option nat }.
Record world := mkWorld { objs : list obj; scopes : list scope }.

Inductive ref := RVar (sc : nat) (x : string) | RProp (base : val) (key : string).

Fixpoint get_ {A} (x : string) (l : list (string * A)) : option A :=
  match l with [] => None | (y, v) :: l' => if String.eqb x y then Some v else get_ x l' end.
Fixpoint set_ {A} (x : string) (v : A) (l : list (string * A)) : list (string * A) :=
  match l with
  | [] => [(x, v)]
  | (y, u) :: l' => if String.eqb x y then (x, v) :: l' else (y, u) :: set_ x v l'
  end.
Fixpoint upd_ {A} (n : nat) (f : A -> A) (l : list A) : list A :=
  match l, n with
  | [], _ => []
  | x :: l', O => f x :: l'
  | x :: l', S n' => x :: upd_ n' f l'
  end.

Definition alloc (o : obj) (w : world) : nat * world :=
  (length (objs w), mkWorld (objs w ++ [o]) (scopes w)).
Definition open_scope (vs : list (string * val)) (up : nat) (w : world) : nat * world :=
  (length (scopes w), mkWorld (objs w) (scopes w ++ [mkScope vs (Some up) None])).
Definition on_obj (a : nat) (f : obj -> obj) (w : world) : world := mkWorld (upd_ a f (objs w)) (scopes w).
Definition on_scope (x : nat) (f : scope -> scope) (w : world) : world := mkWorld (objs w) (upd_ x f (scopes w)).
Definition define (x : nat) (name : string) (v : val) (w : world) : world :=
  on_scope x (fun s => mkScope (set_ name v (s_vars s)) (s_up s) (s_with s)) w.

(** The prototypes: 0 [Object.prototype], 1 [Array.prototype], 2 [Function.prototype] *)
Definition plain : obj := mkObj [] (Some 0%nat) NotFun false.

Fixpoint find_prop (fuel : nat) (a : nat) (k : string) (w : world) : option slot :=
  match fuel with
  | O => None
  | S n =>
      match nth_error (objs w) a with
      | Some o =>
          match get_ k (o_props o) with
          | Some s => Some s
          | None => match o_proto o with Some p => find_prop n p k w | None => None end
          end
      | None => None
      end
  end.
Definition own_keys (a : nat) (w : world) : list string :=
  match nth_error (objs w) a with
  | Some o => filter (fun k => negb (o_array o && String.eqb k "length")) (map fst (o_props o))
  | None => []
  end.

(** Where a variable lives: a scope, or the object of a [with] *)
Inductive place := InScope (x : nat) (v : val) | InObject (a : nat) | Nowhere.
Fixpoint resolve (fuel : nat) (x : nat) (name : string) (w : world) : place :=
  match fuel with
  | O => Nowhere
  | S n =>
      match nth_error (scopes w) x with
      | Some s =>
          match get_ name (s_vars s) with
          | Some v => InScope x v
          | None =>
              match s_with s with
              | Some a => match find_prop 10 a name w with
                          | Some _ => InObject a
                          | None => match s_up s with Some u => resolve n u name w | None => Nowhere end
                          end
              | None => match s_up s with Some u => resolve n u name w | None => Nowhere end
              end
          end
      | None => Nowhere
      end
  end.
Definition depth : nat := 60.

(** ** Conversions and operators *)
Definition num_string (z : Z) : string :=
  match z with
  | Z0 => "0"
  | Zpos p => dec (Npos p)
  | Zneg p => "-" ++ dec (Npos p)
  end.
Definition to_string (v : val) : string :=
  match v with
  | VUndef => "undefined" | VNull => "null" | VBool true => "true" | VBool false => "false"
  | VNum z => num_string z | VStr s => s | VObj _ => "[object Object]" | VMark s => s
  end.
Definition to_num (v : val) : Z :=
  match v with VNum z => z | VBool true => 1%Z | _ => 0%Z end.
Definition truthy (v : val) : bool :=
  match v with
  | VUndef | VNull => false
  | VBool b => b
  | VNum z => negb (Z.eqb z 0)
  | VStr s => negb (String.eqb s "")
  | VObj _ | VMark _ => true
  end.
Definition same (a b : val) : bool :=
  match a, b with
  | VUndef, VUndef | VNull, VNull => true
  | VBool x, VBool y => Bool.eqb x y
  | VNum x, VNum y => Z.eqb x y
  | VStr x, VStr y => String.eqb x y
  | VObj x, VObj y => Nat.eqb x y
  | _, _ => false
  end.
Definition add (a b : val) : val :=
  match a, b with
  | VStr _, _ | _, VStr _ => VStr (to_string a ++ to_string b)
  | _, _ => VNum (to_num a + to_num b)
  end.
Definition less (a b : val) : bool :=   (* comparing with [undefined] is comparing with NaN *)
  match a, b with
  | VUndef, _ | _, VUndef => false
  | _, _ => Z.ltb (to_num a) (to_num b)
  end.
Definition leq (a b : val) : bool :=
  match a, b with
  | VUndef, _ | _, VUndef => false
  | _, _ => Z.leb (to_num a) (to_num b)
  end.
Definition binary (op : N) (a b : val) : option val :=
  match op with
  | 0 => Some (add a b)
  | 1 => Some (VNum (to_num a - to_num b))
  | 2 => Some (VNum (to_num a * to_num b))
  | 4 => Some (VBool (less a b))
  | 5 => Some (VBool (less b a))
  | 6 => Some (VBool (same a b))
  | 7 => Some (VBool (negb (same a b)))
  | 8 => Some (VBool (leq a b))
  | 9 => Some (VBool (leq b a))
  | _ => None
  end.
Definition unary (op : N) (a : val) : option val :=
  match op with
  | 0 => Some (VNum (- to_num a))
  | 1 => Some (VBool (negb (truthy a)))
  | 2 => Some (VNum (to_num a))
  | _ => None
  end.

(** ** Suspended strategies: frames, each waiting for the result of the one before *)
Inductive frame :=
| FVal                                                    (* read a reference *)
| FMember (x : nat) | FKey (base : val)
| FCallee (x : nat) (n : nat)
| FNewCallee (x : nat) (n : nat)
| FArgs (new_ : bool) (x : nat) (i n : nat) (this fn : val) (acc : list val)
| FNew (o : val)
| FFields (o : nat) (key : string) (rest : list (string * nat)) (env : nat)
| FMap (fn : val) (rest acc : list val)
| FReduce (fn : val) (rest : list val)
| FTarget (op : N) (x : nat) | FAssign (op : N) (r : ref) (old : val)
| FUpdate (op : N) | FUnary (op : N)
| FLeft (op : N) (x : nat) | FRight (op : N) (l : val)
| FItems (x : nat) (i n : nat) (absent : list bool) (acc : list val)
| FProps (x : nat) (o : nat) (i n : nat)
| FPropKey (x : nat) (o : nat) | FPropSet (o : nat) (k : string) | FSpread (o : nat)
| FMethodKey (self : bool) (x : nat) (o : nat) (getter : bool)
| FMethod (x : nat) (o : nat) (k : string) (getter : bool)
| FFun (x : nat) (arrow : bool)
| FParams (x : nat) (i n : nat) (args : val)
| FCatch (x : nat)
| FClass (x : nat) | FClassEnd (c : nat) | FBindClass (x : nat)
| FMembers (x : nat) (c : nat) (i n : nat) | FField (x : nat) (c : nat) (k : string) (i n : nat)
| FMark | FConst (v : val)
| FForIn (x : nat) (ls : list string)
| FNextKey (x : nat) (ls : list string) (rest : list string)
| FBody (x : nat) (ls : list string) (rest : list string).

Notation act := (action val ref nat (list frame)).
Notation rval := (rv val ref).

Definition done (r : rval) : act := ADone (CNorm r).
Definition value (v : val) : act := ADone (CNorm (RVal v)).

(** The slot a reference denotes *)
Definition lookup (r : ref) (w : world) : option slot :=
  match r with
  | RVar x name =>
      match resolve depth x name w with
      | InScope _ v => Some (Data v)
      | InObject a => find_prop 10 a name w
      | Nowhere => None
      end
  | RProp (VObj a) k => match find_prop 10 a k w with Some s => Some s | None => Some (Data VUndef) end
  | RProp (VStr s) "length" => Some (Data (VNum (Z.of_nat (String.length s))))
  | RProp VUndef _ | RProp VNull _ => None
  | RProp _ _ => Some (Data VUndef)
  end.
(** An index past the end of an array moves the end. *)
Definition put_elem (k : string) (v : val) (o : obj) : obj :=
  mkObj (set_ k (Data v) (o_props o)) (o_proto o) (o_call o) (o_array o).
Definition store (r : ref) (v : val) (w : world) : option world :=
  match r with
  | RVar x name =>
      match resolve depth x name w with
      | InScope y _ => Some (define y name v w)
      | InObject a => Some (on_obj a (put_elem name v) w)
      | Nowhere => Some (define 0 name v w)
      end
  | RProp (VObj a) k => Some (on_obj a (put_elem k v) w)
  | _ => None
  end.

Definition elements (l : list val) (holes : list bool) : list (string * slot) :=
  (fix go (i : nat) (l : list val) (hs : list bool) :=
     match l with
     | [] => [("length", Data (VNum (Z.of_nat i)))]
     | v :: l' =>
         (if hd false hs then [] else [(num_string (Z.of_nat i), Data v)]) ++ go (S i) l' (tl hs)
     end) 0%nat l holes.
Definition new_array (l : list val) (holes : list bool) (w : world) : nat * world :=
  alloc (mkObj (elements l holes) (Some 1%nat) NotFun true) w.
Definition index (a : val) (i : nat) (w : world) : val :=
  match a with
  | VObj p => match find_prop 1 p (num_string (Z.of_nat i)) w with Some (Data v) => v | _ => VUndef end
  | _ => VUndef
  end.
Definition array_values (a : val) (w : world) : list val :=
  match a with
  | VObj p =>
      match find_prop 1 p "length" w with
      | Some (Data (VNum z)) => map (fun i => index a i w) (seq 0 (Z.to_nat z))
      | _ => []
      end
  | _ => []
  end.

Definition type_error : act := ADone (CThrow (VStr "TypeError")).
Definition func_obj (c : callable) (w : world) : nat * world :=
  let (p, w1) := alloc plain w in
  alloc (mkObj [("prototype", Data (VObj p))] (Some 2%nat) c false) w1.
Definition proto_of (f : nat) (w : world) : nat :=
  match find_prop 1 f "prototype" w with Some (Data (VObj p)) => p | _ => 0%nat end.
Definition call_of (v : val) (w : world) : callable :=
  match v with VObj a => match nth_error (objs w) a with Some o => o_call o | None => NotFun end | _ => NotFun end.

Fixpoint index_of (v : val) (l : list val) (i : Z) : Z :=
  match l with [] => (-1)%Z | x :: l' => if same v x then i else index_of v l' (i + 1) end.

(** Call user code in a scope of its own, with [this] unless it is an arrow function *)
Definition enter (f env : nat) (arrow : bool) (this : val) (args : list val) (k : list frame) (w : world) : act * world :=
  let (a, w1) := new_array args [] w in
  let (x, w2) := open_scope (if arrow then [] else [("this", this)]) env w1 in
  (ACall f x (VObj a) k, w2).

(** Call [fn]; either it needs user code or the result is there at once. *)
Definition invoke (fn this : val) (args : list val) (k : list frame) (w : world) : (act + val) * world :=
  match call_of fn w with
  | Code f env arrow => let (a, w1) := enter f env arrow this args k w in (inl a, w1)
  | Native NAbs => (inr (VNum (Z.abs (to_num (hd VUndef args)))), w)
  | Native NNow => (inr (VNum 0), w)
  | Native NObject => let (a, w1) := alloc plain w in (inr (VObj a), w1)
  | Native NIndexOf => (inr (VNum (index_of (hd VUndef args) (array_values this w) 0)), w)
  | Native NHasOwn =>
      (inr (VBool match this with
                  | VObj a => existsb (String.eqb (to_string (hd VUndef args))) (own_keys a w)
                  | _ => false
                  end), w)
  | Native NMap =>
      match array_values this w with
      | [] => let (a, w1) := new_array [] [] w in (inr (VObj a), w1)
      | v :: rest =>
          match call_of (hd VUndef args) w with
          | Code f env arrow =>
              let (a, w1) := enter f env arrow VUndef [v] (FMap (hd VUndef args) rest [] :: k) w in (inl a, w1)
          | _ => (inl type_error, w)
          end
      end
  | Native NReduce =>
      match array_values this w with
      | [] => (inr (nth 1 args VUndef), w)
      | v :: rest =>
          match call_of (hd VUndef args) w with
          | Code f env arrow =>
              let (a, w1) := enter f env arrow VUndef [nth 1 args VUndef; v] (FReduce (hd VUndef args) rest :: k) w in
              (inl a, w1)
          | _ => (inl type_error, w)
          end
      end
  | ClassOf _ _ | NotFun => (inl type_error, w)
  end.

(** The fields of a new object are initialised one after the other. *)
Definition fields_step (o : nat) (fs : list (string * nat)) (env : nat) (k : list frame) (w : world) : (act + val) * world :=
  match fs with
  | [] => (inr (VObj o), w)
  | (key, f) :: rest =>
      let (x, w1) := open_scope [("this", VObj o)] env w in
      (inl (ACall f x VUndef (FFields o key rest env :: k)), w1)
  end.
Definition construct (fn : val) (args : list val) (k : list frame) (w : world) : (act + val) * world :=
  match fn with
  | VObj a =>
      let (o, w1) := alloc (mkObj [] (Some (proto_of a w)) NotFun false) w in
      match call_of fn w with
      | Code f env false => let (c, w2) := enter f env false (VObj o) args (FNew (VObj o) :: k) w1 in (inl c, w2)
      | ClassOf fs env => fields_step o fs env k w1
      | Native NObject => (inr (VObj o), w1)
      | _ => (inl type_error, w)
      end
  | _ => (inl type_error, w)
  end.

Definition args_step (new_ : bool) (x : nat) (i n : nat) (this fn : val) (acc : list val) (k : list frame) (w : world)
  : (act + val) * world :=
  if Nat.ltb i n then (inl (AEval i MRead x VUndef (FVal :: FArgs new_ x i n this fn acc :: k)), w)
  else if new_ then construct fn acc k w else invoke fn this acc k w.

Definition next_key (x : nat) (ls rest : list string) (k : list frame) : act :=
  match rest with
  | [] => value VUndef
  | key :: rest' => AEval 0 (MBind VVar) x (VStr key) (FNextKey x ls rest' :: k)
  end.

(** What a frame does with a result: go on with an action, or hand a result to the next frame *)
Definition step (fr : frame) (k : list frame) (r : rval) (w : world) : (act + rval) * world :=
  let v := match r with RVal v => v | RRef _ => VUndef end in
  let ret (v : val) := (inr (RVal v) : act + rval, w) in
  let go (a : act) := (inl a : act + rval, w) in
  let lift (p : (act + val) * world) : (act + rval) * world :=
    match p with (inl a, w1) => (inl a, w1) | (inr v, w1) => (inr (RVal v), w1) end in
  match fr with
  | FVal =>
      match r with
      | RVal v => ret v
      | RRef rf =>
          match lookup rf w with
          | Some (Data v) => ret v
          | Some (Getter f) => lift (invoke (VObj f) (match rf with RProp b _ => b | _ => VUndef end) [] k w)
          | None => go type_error
          end
      end
  | FMember x => go (AEval 1 MRead x VUndef (FVal :: FKey v :: k))
  | FKey base => (inr (RRef (RProp base (to_string v))), w)
  | FCallee x n =>
      match (match r with RVal v => Some (Data v) | RRef rf => lookup rf w end) with
      | Some (Data f) =>
          lift (args_step false x 1 n (match r with RRef (RProp b _) => b | _ => VUndef end) f [] k w)
      | _ => go type_error
      end
  | FNewCallee x n => lift (args_step true x 1 n VUndef v [] k w)
  | FArgs nw x i n this fn acc => lift (args_step nw x (S i) n this fn (acc ++ [v]) k w)
  | FNew o => ret match v with VObj _ => v | _ => o end
  | FFields o key rest env => lift (fields_step o rest env k (on_obj o (put_elem key v) w))
  | FMap fn rest acc =>
      match rest with
      | [] => let (a, w1) := new_array (acc ++ [v]) [] w in (inr (RVal (VObj a)), w1)
      | u :: rest' => lift (invoke fn VUndef [u] (FMap fn rest' (acc ++ [v]) :: k) w)
      end
  | FReduce fn rest =>
      match rest with
      | [] => ret v
      | u :: rest' => lift (invoke fn VUndef [v; u] (FReduce fn rest' :: k) w)
      end
  | FTarget op x =>
      match r with
      | RRef rf =>
          let old := match lookup rf w with Some (Data u) => u | _ => VUndef end in
          go (AEval 1 MRead x VUndef (FVal :: FAssign op rf old :: k))
      | RVal _ => go (ADone CStuck)
      end
  | FAssign op rf old =>
      match (match op with 0 => Some v | _ => binary (op - 1) old v end) with
      | Some u => match store rf u w with Some w1 => (inr (RVal u), w1) | None => go type_error end
      | None => go (ADone CStuck)
      end
  | FUpdate op =>
      match r with
      | RRef rf =>
          let old := match lookup rf w with Some (Data u) => to_num u | _ => 0%Z end in
          let new := (if N.odd op then old - 1 else old + 1)%Z in
          match store rf (VNum new) w with
          | Some w1 => (inr (RVal (VNum (if op <? 2 then old else new))), w1)
          | None => go type_error
          end
      | RVal _ => go (ADone CStuck)
      end
  | FUnary op => match unary op v with Some u => ret u | None => go (ADone CStuck) end
  | FLeft op x => go (AEval 1 MRead x VUndef (FVal :: FRight op v :: k))
  | FRight op l => match binary op l v with Some u => ret u | None => go (ADone CStuck) end
  | FItems x i n absent acc =>
      (* element [i] is [v]; skip the holes that follow *)
      let fix gap (j : nat) (hs : list bool) (acc : list val) : nat * list val :=
        match hs with true :: hs' => gap (S j) hs' (acc ++ [VUndef]) | _ => (j, acc) end in
      let (j, acc1) := gap (S i) (skipn (S i) absent) (acc ++ [v]) in
      if Nat.ltb j n then go (AEval j MRead x VUndef (FVal :: FItems x j n absent acc1 :: k))
      else let (a, w1) := new_array acc1 absent w in (inr (RVal (VObj a)), w1)
  | FProps x o i n =>
      if Nat.ltb (S i) n then go (AEval (S i) MRead x (VObj o) (FProps x o (S i) n :: k)) else ret (VObj o)
  | FPropKey x o => go (AEval 1 MRead x VUndef (FVal :: FPropSet o (to_string v) :: k))
  | FPropSet o key => (inr (RVal VUndef), on_obj o (put_elem key v) w)
  | FSpread o =>
      match v with
      | VObj a =>
          (inr (RVal VUndef),
           fold_left (fun w key => match find_prop 1 a key w with
                                   | Some (Data u) => on_obj o (put_elem key u) w
                                   | _ => w
                                   end) (own_keys a w) w)
      | _ => ret VUndef
      end
  | FMethodKey self x o getter =>
      go (AClose (if self then None else Some 1%nat)
            (FMethod x o (to_string v) (getter || match v with VMark _ => true | _ => false end) :: k))
  | FFun _ _ | FMethod _ _ _ _ | FField _ _ _ _ _ => go (ADone CStuck)
  | FParams x i n args =>
      if Nat.ltb (S i) n then go (AEval (S i) (MBind VLet) x (index args (S i) w) (FParams x (S i) n args :: k))
      else ret VUndef
  | FCatch x => go (AEval 1 MRead x VUndef k)
  | FClass x =>
      let (c, w1) := func_obj (ClassOf [] x) w in
      (inl (AEval 1 MRead x (VObj c) (FClassEnd c :: k)), w1)
  | FClassEnd c => ret (VObj c)
  | FBindClass x => go (AEval 0 (MBind VLet) x v k)
  | FMembers x c i n =>
      match v with
      | VMark key => go (AClose (Some i) (FField x c key i n :: k))
      | _ => if Nat.ltb (S i) n then go (AEval (S i) MRead x (VObj c) (FMembers x c (S i) n :: k)) else ret VUndef
      end
  | FMark => ret (VMark (to_string v))
  | FConst u => ret u
  | FForIn x ls =>
      match v with VObj a => go (next_key x ls (own_keys a w) k) | _ => ret VUndef end
  | FNextKey x ls rest => go (AEval 2 MRead x VUndef (FBody x ls rest :: k))
  | FBody x ls rest => go (next_key x ls rest k)
  end.

Fixpoint resume_with (k : list frame) (r : rval) (w : world) : act * world :=
  match k with
  | [] => (done r, w)
  | fr :: k' =>
      match step fr k' r w with
      | (inl a, w1) => (a, w1)
      | (inr r1, w1) => resume_with k' r1 w1
      end
  end.

(** A completion that is not normal leaves the node; the body of a [for]-[in] handles its own. *)
Definition resume (k : list frame) (a : answer val ref) (w : world) : act * world :=
  match a with
  | AnsC (CNorm r) => resume_with k r w
  | AnsC c =>
      match k with
      | FBody x ls rest :: k' =>
          match c with
          | CCont None => (next_key x ls rest k', w)
          | CCont (Some l) => if existsb (String.eqb l) ls then (next_key x ls rest k', w) else (ADone c, w)
          | CBreak None => (value VUndef, w)
          | _ => (ADone c, w)
          end
      | _ => (ADone c, w)
      end
  | AnsF f =>
      match k with
      | FFun x arrow :: k' =>
          let (a, w1) := func_obj (Code f x arrow) w in resume_with k' (RVal (VObj a)) w1
      | FMethod x o key getter :: k' =>
          let (a, w1) := func_obj (Code f x false) w in
          let s := if getter then Getter a else Data (VObj a) in
          resume_with k' (RVal VUndef)
            (on_obj o (fun b => mkObj (set_ key s (o_props b)) (o_proto b) (o_call b) (o_array b)) w1)
      | FField x c key i n :: k' =>
          let w1 := on_obj c (fun b => mkObj (o_props b) (o_proto b)
                      match o_call b with ClassOf fs env => ClassOf (fs ++ [(key, f)]) env | c => c end
                      (o_array b)) w in
          if Nat.ltb (S i) n then (AEval (S i) MRead x (VObj c) (FMembers x c (S i) n :: k'), w1)
          else resume_with k' (RVal VUndef) w1
      | _ => (ADone CStuck, w)
      end
  end.

Fixpoint first_present (i : nat) (absent : list bool) : nat :=
  match absent with true :: l => first_present (S i) l | _ => i end.

Definition play_other (tag : N) (absent : list bool) (m : mode) (x : nat) (v : val) (w : world) : act * world :=
  let n := length absent in
  let self := match v with VObj a => a | _ => 0%nat end in
  if 1000 <=? tag then (value (VNum (Z.of_N (tag - 1000))), w) else
  match tag with
  | 1 => (AEval 0 MRead x VUndef [FVal; FMember x], w)
  | 2 | 4 | 46 | 48 => (AEval 0 MRead x VUndef [FVal], w)
  | 3 => (AEval 0 MRead x VUndef [FCallee x n], w)
  | 5 => (AEval 0 MRead x VUndef [FVal; FNewCallee x n], w)
  | 10 | 11 | 12 | 13 => (AEval 0 MRead x VUndef [FTarget (tag - 10) x], w)
  | 20 | 21 | 22 | 23 => (AEval 0 MRead x VUndef [FUpdate (tag - 20)], w)
  | 30 | 31 | 32 => (AEval 0 MRead x VUndef [FVal; FUnary (tag - 30)], w)
  | 40 =>
      let i := first_present 0 absent in
      if Nat.ltb i n then (AEval i MRead x VUndef [FVal; FItems x i n absent (repeat VUndef i)], w)
      else let (a, w1) := new_array (repeat VUndef n) absent w in (value (VObj a), w1)
  | 41 =>
      let (a, w1) := alloc plain w in
      if Nat.ltb 0 n then (AEval 0 MRead x (VObj a) [FProps x a 0 n], w1) else (value (VObj a), w1)
  | 42 => (AEval 0 MRead x VUndef [FVal; FPropKey x self], w)
  | 43 => (AEval 0 MRead x VUndef [FVal; FSpread self], w)
  | 44 => (done (RRef (RVar x "this")), w)
  | 49 => (AEval 0 m x v [], w)
  | 50 =>
      let (y, w1) := open_scope [] x w in
      if hd true absent then (AEval 1 MRead y VUndef [], w1)
      else (AEval 0 (MBind VLet) y v [FCatch y], w1)
  | 52 => (value (VBool true), w)
  | 53 => (value (VBool false), w)
  | 54 => (value VNull, w)
  | 57 => (value VUndef, w)
  | 60 => (value (VStr "bigint"), w)
  | _ => (ADone CStuck, w)
  end.

Definition play (k : kind) (absent : list bool) (m : mode) (ls : list string) (x : nat) (v : val) (w : world)
  : act * world :=
  let n := length absent in
  let self := match v with VObj a => a | _ => 0%nat end in
  match k with
  | KIdent name =>
      match m with
      | MBind VVar => match store (RVar x name) v w with Some w1 => (value VUndef, w1) | None => (type_error, w) end
      | MBind _ => (value VUndef, define x name v w)
      | _ => (done (RRef (RVar x name)), w)
      end
  | KPropIdent name => (value (match absent with [] => VStr name | _ => VMark name end), w)
  | KStr s => (value (VStr s), w)
  | KBin (OpOther op) => (AEval 0 MRead x VUndef [FVal; FLeft op x], w)
  | KFnExpr => (AClose (Some 1%nat) [FFun x false], w)
  | KArrow => (AClose None [FFun x true], w)
  | KMethodProp => (AEval 0 MRead x VUndef [FVal; FMethodKey false x self false], w)
  | KGetter => (AEval 0 MRead x VUndef [FVal; FMethodKey true x self true], w)
  | KSetter => (value VUndef, w)
  | KClassDecl => (AEval 1 MRead x VUndef [FBindClass x], w)
  | KClassExpr => (AEval 1 MRead x VUndef [], w)
  | KClass =>
      if nth 2 absent true then resume_with [FClass x] (RVal VUndef) w
      else (AEval 2 MRead x VUndef [FVal; FClass x], w)
  | KClassMethod =>
      (AEval 0 MRead x VUndef [FVal; FMethodKey false x (proto_of self w) false], w)
  | KClassProp | KPrivateProp =>
      match m with
      | MCall => if nth 1 absent true then (value VUndef, w) else (AEval 1 MRead x VUndef [FVal], w)
      | _ => (AEval 0 MRead x VUndef [FVal; FMark], w)
      end
  | KList =>
      if Nat.ltb 0 n then
        match m with
        | MBind _ => (AEval 0 m x (index v 0 w) [FParams x 0 n v], w)
        | _ => (AEval 0 MRead x v [FMembers x self 0 n], w)
        end
      else (value VUndef, w)
  | KForIn => (AEval 1 MRead x VUndef [FVal; FForIn x ls], w)
  | KOther tag => play_other tag absent m x v w
  | _ => (ADone CStuck, w)
  end.

(** create_increase_true_expr.rs:61-189: the tests of [cov().temp] *)
Definition test_temp (n : N) (v : val) (w : world) : act :=
  let arr := match v with VObj a => match nth_error (objs w) a with Some o => o_array o | None => false end | _ => false end in
  match n with
  | 0 => value (VBool (negb arr))
  | 1 => match lookup (RProp v "length") w with Some (Data u) => value u | _ => type_error end
  | 2 => value (VBool match v with
                      | VObj a => match nth_error (objs w) a with
                                  | Some o => match o_proto o with Some 0%nat => false | _ => true end
                                  | None => true
                                  end
                      | _ => true
                      end)
  | _ => value (VNum match v with VObj a => Z.of_nat (length (own_keys a w)) | _ => 0%Z end)
  end.

Definition js : host :=
  mkHost val ref nat world (list frame) VUndef
    (fun v => match v with VUndef => true | _ => false end)
    truthy
    (fun v => match v with VUndef | VNull => true | _ => false end)
    same
    play resume
    (fun r w => resume_with [FVal] (RRef r) w)
    (fun _ decls x w => open_scope (map (fun d => (snd d, VUndef)) decls) x w)
    (fun x w => match nth_error (scopes w) x with
                | Some s => (length (scopes w), mkWorld (objs w) (scopes w ++ [s]))
                | None => (x, w)
                end)
    (fun name f x w => let (a, w1) := func_obj (Code f x false) w in define x name (VObj a) w1)
    (fun v x w => match v with
                  | VObj a => (inr (length (scopes w)), mkWorld (objs w) (scopes w ++ [mkScope [] (Some x) (Some a)]))
                  | _ => (inl (VStr "TypeError"), w)
                  end)
    (fun n v _ w => (test_temp n v w, w)).

(** ** The environment of a fixture (spec/util/verifier.ts:254-268): [args] and [output] *)
Inductive lit :=
| LUndef | LNull | LBool (b : bool) | LNum (z : Z) | LStr (s : string)
| LArr (l : list lit) | LObj (l : list (string * lit)).

Fixpoint build (l : lit) (w : world) : val * world :=
  match l with
  | LUndef => (VUndef, w) | LNull => (VNull, w) | LBool b => (VBool b, w) | LNum z => (VNum z, w) | LStr s => (VStr s, w)
  | LArr ls =>
      let (vs, w1) := (fix go (ls : list lit) (w : world) : list val * world :=
                         match ls with
                         | [] => ([], w)
                         | l :: ls' => let (v, w1) := build l w in let (vs, w2) := go ls' w1 in (v :: vs, w2)
                         end) ls w in
      let (a, w2) := new_array vs [] w1 in (VObj a, w2)
  | LObj ls =>
      let (ps, w1) := (fix go (ls : list (string * lit)) (w : world) : list (string * slot) * world :=
                         match ls with
                         | [] => ([], w)
                         | (k, l) :: ls' => let (v, w1) := build l w in let (vs, w2) := go ls' w1 in ((k, Data v) :: vs, w2)
                         end) ls w in
      let (a, w2) := alloc (mkObj ps (Some 0%nat) NotFun false) w1 in (VObj a, w2)
  end.
(** Does a value look like the literal? *)
Fixpoint looks (l : lit) (v : val) (w : world) {struct l} : bool :=
  match l, v with
  | LUndef, VUndef | LNull, VNull => true
  | LBool a, VBool b => Bool.eqb a b
  | LNum a, VNum b => Z.eqb a b
  | LStr a, VStr b => String.eqb a b
  | LArr ls, VObj _ =>
      (fix go (ls : list lit) (vs : list val) : bool :=
         match ls, vs with
         | [], [] => true
         | l :: ls', v :: vs' => looks l v w && go ls' vs'
         | _, _ => false
         end) ls (array_values v w)
  | _, _ => false
  end.

Definition native_obj (n : native) : obj := mkObj [] (Some 2%nat) (Native n) false.
Definition holder (l : list (string * nat)) : obj :=
  mkObj (map (fun kv => (fst kv, Data (VObj (snd kv)))) l) (Some 0%nat) NotFun false.
Definition builtins : list obj :=
  [ mkObj [("hasOwnProperty", Data (VObj 7))] None NotFun false;
    mkObj [("map", Data (VObj 4)); ("reduce", Data (VObj 5)); ("indexOf", Data (VObj 6))] (Some 0%nat) NotFun false;
    mkObj [] (Some 0%nat) NotFun false;
    native_obj NAbs; native_obj NMap; native_obj NReduce; native_obj NIndexOf; native_obj NHasOwn; native_obj NNow;
    mkObj [("prototype", Data (VObj 0))] (Some 2%nat) (Native NObject) false;
    holder [("abs", 3%nat)]; holder [("now", 8%nat)] ].
Definition world0 (args : lit) : world :=
  let (v, w) := build args (mkWorld builtins [mkScope [("Object", VObj 9); ("Math", VObj 10); ("Date", VObj 11);
                                                        ("output", VUndef); ("this", VUndef)] None None]) in
  define 0 "args" v w.
