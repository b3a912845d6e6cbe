(** A checker for the contracts of MemLang.v: an abstract execution that follows every path of a function and keeps track of
    what each pointer variable holds and of the objects that the function is responsible for.  Its soundness is proved in
    MemSound.v, so nothing here has to be trusted.  Definitions only. *)
From Coq Require Import String List Bool Arith.
From Verif Require Import MemLang.
Import ListNotations.
Local Open Scope nat_scope.

(** what a window points into: the argument i; the object n of this call; not known *)
Inductive dep := DBor (i : nat) | DSite (n : nat) | DAny.
Inductive aval := ANull | AFlg (b : bool) | ABor (i : nat) | AOwn (n : nat).
(** the objects the function is responsible for: one; one for each entry of an array; one for the entries lo .. lo+len-1 *)
Inductive chunk :=
| CObj (n : nat) (k : kind) (ds : list dep)
| CArr (a b : string) (k : kind) (ds : list dep)
| CRng (a : string) (lo len : nat) (k : kind) (ds : list dep).
Record ast := Ast { vars : list (place * aval); chs : list chunk; nxt : nat; leak : bool }.
Inductive aout := TNorm | TBrk | TCont | TRet (v : option aval).

Definition place_eqb (p q : place) : bool := match p, q with V x, V y => String.eqb x y | El x, El y => String.eqb x y | _, _ => false end.
Definition kind_eq_dec (a b : kind) : {a = b} + {a <> b}. Proof. decide equality. Defined.
Definition keqb (a b : kind) : bool := if kind_eq_dec a b then true else false.
Definition dep_eq_dec (a b : dep) : {a = b} + {a <> b}. Proof. decide equality; apply Nat.eq_dec. Defined.
Definition deps_eq_dec : forall a b : list dep, {a = b} + {a <> b} := list_eq_dec dep_eq_dec.
Definition aval_eq_dec (a b : aval) : {a = b} + {a <> b}. Proof. decide equality; try apply Nat.eq_dec; apply Bool.bool_dec. Defined.
Definition place_eq_dec (a b : place) : {a = b} + {a <> b}. Proof. decide equality; apply string_dec. Defined.
Definition chunk_eq_dec (a b : chunk) : {a = b} + {a <> b}.
Proof. decide equality; try apply deps_eq_dec; try apply kind_eq_dec; try apply Nat.eq_dec; apply string_dec. Defined.
Definition bind_eq_dec (a b : place * aval) : {a = b} + {a <> b}. Proof. decide equality; [apply aval_eq_dec | apply place_eq_dec]. Defined.
Definition ast_eq_dec (a b : ast) : {a = b} + {a <> b}.
Proof. decide equality; [apply Bool.bool_dec | apply Nat.eq_dec | apply (list_eq_dec chunk_eq_dec) | apply (list_eq_dec bind_eq_dec)]. Defined.
Definition aout_eq_dec (a b : aout) : {a = b} + {a <> b}. Proof. decide equality. decide equality. apply aval_eq_dec. Defined.
Definition out_eq_dec (a b : aout * ast) : {a = b} + {a <> b}. Proof. decide equality; [apply ast_eq_dec | apply aout_eq_dec]. Defined.

Fixpoint look (p : place) (vs : list (place * aval)) : option aval :=
  match vs with [] => None | (q, v) :: vs => if place_eqb p q then Some v else look p vs end.
Definition vdel (p : place) (vs : list (place * aval)) := filter (fun q => negb (place_eqb p (fst q))) vs.
Definition vput (p : place) (v : aval) (vs : list (place * aval)) := (p, v) :: vdel p vs.
Fixpoint pull (n : nat) (cs : list chunk) : option (kind * list dep * list chunk) :=
  match cs with
  | [] => None
  | CObj m k ds :: cs' => if n =? m then Some (k, ds, cs') else match pull n cs' with Some (k', ds', r) => Some (k', ds', CObj m k ds :: r) | None => None end
  | c :: cs' => match pull n cs' with Some (k', ds', r) => Some (k', ds', c :: r) | None => None end
  end.
Fixpoint pull_arr (a : string) (cs : list chunk) : option (string * kind * list dep * list chunk) :=
  match cs with
  | [] => None
  | CArr a' b k ds :: cs' => if String.eqb a a' then Some (b, k, ds, cs') else match pull_arr a cs' with Some (b', k', ds', r) => Some (b', k', ds', CArr a' b k ds :: r) | None => None end
  | c :: cs' => match pull_arr a cs' with Some (b', k', ds', r) => Some (b', k', ds', c :: r) | None => None end
  end.
Definition has_site (n : nat) (cs : list chunk) : bool := existsb (fun c => match c with CObj m _ _ => n =? m | _ => false end) cs.
Definition has_arr (a : string) (cs : list chunk) : bool :=
  existsb (fun c => match c with CObj _ _ _ => false | CArr a' _ _ _ | CRng a' _ _ _ _ => String.eqb a a' end) cs.
Definition has_bnd (b : string) (cs : list chunk) : bool := existsb (fun c => match c with CArr _ b' _ _ => String.eqb b b' | _ => false end) cs.
Definition dep_live (cs : list chunk) (d : dep) : bool := match d with DBor _ => true | DSite n => has_site n cs | DAny => false end.
Definition live (cs : list chunk) (v : aval) : bool :=
  match v with
  | ABor _ => true
  | AOwn n => match pull n cs with Some (_, ds, _) => forallb (dep_live cs) ds | None => false end
  | _ => false
  end.
(** what a window into v points into *)
Definition val_deps (cs : list chunk) (v : aval) : list dep :=
  match v with
  | ABor i => [DBor i]
  | AOwn n => DSite n :: match pull n cs with Some (_, ds, _) => ds | None => [] end
  | _ => []
  end.
Definition dep_fresh (n : nat) (d : dep) : bool := match d with DSite m => negb (n =? m) | _ => true end.
Definition chunk_fresh (n : nat) (c : chunk) : bool :=
  match c with CObj m _ ds => negb (n =? m) && forallb (dep_fresh n) ds | CArr _ _ _ ds | CRng _ _ _ _ ds => forallb (dep_fresh n) ds end.
Definition val_fresh (n : nat) (v : aval) : bool := match v with AOwn m => negb (n =? m) | _ => true end.
(** the number n does not occur (numbers below np stand for the arguments) *)
Definition fresh (np n : nat) (vs : list (place * aval)) (cs : list chunk) : bool :=
  (np <=? n) && forallb (fun q => val_fresh n (snd q)) vs && forallb (chunk_fresh n) cs.
Definition putable (p : place) (cs : list chunk) : bool := match p with V _ => true | El a => negb (has_arr a cs) end.
Definition put_var (p : place) (v : aval) (A : ast) : option ast :=
  if putable p (chs A) then Some (Ast (vput p v (vars A)) (chs A) (nxt A) (leak A)) else None.
(** a new object, in variable p (or in no variable) *)
Definition alloc (np : nat) (p : option place) (k : kind) (ds : list dep) (A : ast) : option ast :=
  let n := nxt A in
  if fresh np n (vars A) (chs A) && forallb (dep_fresh n) ds then
    match p with
    | Some p => if putable p (chs A) then Some (Ast (vput p (AOwn n) (vars A)) (CObj n k ds :: chs A) (S n) (leak A)) else None
    | None => Some (Ast (vars A) (CObj n k ds :: chs A) (S n) (leak A))
    end
  else None.
Definition relb (k k' : kind) : bool := keqb k k' || (keqb k KMzd && keqb k' KMzdWin).
Definition leaf_kind (k : kind) : bool := match shapes k with [[]] => true | _ => false end.

Definition outs := list (aout * ast).
Definition add_out (o : aout * ast) (l : outs) : outs := if in_dec out_eq_dec o l then l else o :: l.
Fixpoint merge (a b : outs) : outs := match a with [] => b | o :: a => add_out o (merge a b) end.
Definition both (a b : option outs) : option outs := match a, b with Some a, Some b => Some (merge a b) | _, _ => None end.
Definition one (A : option ast) : option outs := match A with Some A => Some [(TNorm, A)] | None => None end.
(** continue where the end was normal *)
Fixpoint andthen (l : outs) (f : ast -> option outs) : option outs :=
  match l with
  | [] => Some []
  | (TNorm, A) :: l => both (f A) (andthen l f)
  | o :: l => both (Some [o]) (andthen l f)
  end.

(** forget the pointers to objects that were released, and number the next object after those still there *)
Definition dep_site (d : dep) : nat := match d with DSite n => S n | _ => 0 end.
Definition chunk_site (c : chunk) : nat :=
  match c with CObj n _ ds => fold_right Nat.max (S n) (map dep_site ds) | CArr _ _ _ ds | CRng _ _ _ _ ds => fold_right Nat.max 0 (map dep_site ds) end.
Definition clean (np : nat) (A : ast) : ast :=
  Ast (filter (fun q => match snd q with AOwn n => has_site n (chs A) | _ => true end) (vars A)) (chs A)
    (fold_right Nat.max np (map chunk_site (chs A))) (leak A).
Definition tidy (np : nat) (l : option outs) : option outs :=
  match l with Some l => Some (fold_right (fun o r => add_out (fst o, clean np (snd o)) r) [] l) | None => None end.

(** ** loops: the variables on which the ends of a round agree with its start *)
Definition keep_vars (vs : list (place * aval)) (l : outs) : list (place * aval) :=
  filter (fun q => forallb (fun o => if in_dec bind_eq_dec q (vars (snd o)) then true else false) l) vs.
(** the same objects, possibly in another order *)
Fixpoint take_out (c : chunk) (cs : list chunk) : option (list chunk) :=
  match cs with [] => None | c' :: cs => if chunk_eq_dec c c' then Some cs else match take_out c cs with Some r => Some (c' :: r) | None => None end end.
Fixpoint permb (a b : list chunk) : bool :=
  match a with [] => match b with [] => true | _ => false end | c :: a => match take_out c b with Some b => permb a b | None => false end end.
(** A' has all that A says *)
Definition entails (A' A : ast) : bool :=
  forallb (fun q => if in_dec bind_eq_dec q (vars A') then true else false) (vars A) &&
  permb (chs A') (chs A) && implb (leak A') (leak A).
Definition goes_on (o : aout * ast) : bool := match fst o with TNorm | TCont => true | _ => false end.
Definition loop_start (A : ast) (l : outs) : ast :=
  let l := filter goes_on l in Ast (keep_vars (vars A) l) (chs A) (nxt A) (leak A || existsb (fun o => leak (snd o)) l).
Definition loop_end (A : ast) (l : outs) : outs :=
  (TNorm, A) :: concat (map (fun o => match fst o with TBrk => [(TNorm, snd o)] | TRet _ => [o] | _ => [] end) l).
Definition loop_ok (A : ast) (l : outs) : bool := forallb (fun o => implb (goes_on o) (entails (snd o) A)) l.

(** ** loops over arrays *)
Definition status := option (kind * list dep).
Record ent := Ent { en_a : string; en_n : nat; en_0 : status; en_1 : status }.
Definition no_site (d : dep) : bool := match d with DSite _ => false | _ => true end.
Definition place_arr (p : place) : list string := match p with El a => [a] | V _ => [] end.
Definition arg_arr (a : arg) : list string := match a with AP p => place_arr p | _ => [] end.
Fixpoint arrs (s : stmt) : list string :=
  match s with
  | Seq s1 s2 | If s1 s2 | IfFlag _ s1 s2 => arrs s1 ++ arrs s2
  | Malloc p _ | Free p _ | SetNull p | Ret (Some p) => place_arr p
  | Window p _ q | Set_ p q => place_arr p ++ place_arr q
  | Use ps => concat (map place_arr ps)
  | IfNull p s1 s2 => place_arr p ++ arrs s1 ++ arrs s2
  | IfSame p q s1 s2 => place_arr p ++ place_arr q ++ arrs s1 ++ arrs s2
  | Loop s | For _ s | ForFrom _ _ s => arrs s
  | Call (Some p) _ args => place_arr p ++ concat (map arg_arr args)
  | Call None _ args => concat (map arg_arr args)
  | _ => []
  end.
(** no other loop over an array inside, and no structure taken apart *)
Fixpoint plain (s : stmt) : bool :=
  match s with
  | Seq s1 s2 | If s1 s2 | IfFlag _ s1 s2 | IfNull _ s1 s2 | IfSame _ _ s1 s2 => plain s1 && plain s2
  | Loop s => plain s
  | For _ _ | ForFrom _ _ _ | Unpack _ _ => false
  | _ => true
  end.
(** take the arrays out of the state: their entries before the loop, and the rest *)
Fixpoint open_arrs (b : string) (names : list string) (n : nat) (cs : list chunk) : option (list (string * nat * status) * list chunk) :=
  match names with
  | [] => Some ([], cs)
  | a :: names =>
      match pull_arr a cs with
      | Some (b', k, ds, cs') =>
          if String.eqb b b' && forallb no_site ds then
            match open_arrs b names (S n) cs' with Some (es, r) => Some ((a, n, Some (k, ds)) :: es, r) | None => None end
          else None
      | None => match open_arrs b names (S n) cs with Some (es, r) => Some ((a, n, None) :: es, r) | None => None end
      end
  end.
Definition el_vars (es : list (string * nat * status)) : list (place * aval) :=
  concat (map (fun e => match e with (a, n, Some _) => [(El a, AOwn n)] | _ => [] end) es).
Definition el_chs (es : list (string * nat * status)) : list chunk :=
  concat (map (fun e => match e with (_, n, Some (k, ds)) => [CObj n k ds] | _ => [] end) es).
Definition is_V (q : place * aval) : bool := match fst q with V _ => true | El _ => false end.
(** the entry of the array at the end of a round *)
Definition close1 (a : string) (vs : list (place * aval)) (cs : list chunk) : status * list chunk :=
  match look (El a) vs with
  | Some (AOwn n) => match pull n cs with Some (k, ds, r) => if forallb no_site ds then (Some (k, ds), r) else (None, cs) | None => (None, cs) end
  | _ => (None, cs)
  end.
Fixpoint close_arrs (names : list string) (vs : list (place * aval)) (cs : list chunk) : list status * list chunk :=
  match names with [] => ([], cs) | a :: names => let '(s, r) := close1 a vs cs in let '(ss, r) := close_arrs names vs r in (s :: ss, r) end.
Definition status_eq_dec (a b : status) : {a = b} + {a <> b}. Proof. decide equality. decide equality; [apply deps_eq_dec | apply kind_eq_dec]. Defined.
Definition for_round_ok (names : list string) (ss : list status) (C0 : list chunk) (vs : list (place * aval)) (o : aout * ast) : bool :=
  match fst o with TNorm => true | _ => false end && negb (leak (snd o)) &&
  forallb (fun q => if in_dec bind_eq_dec q (vars (snd o)) then true else false) vs &&
  (let '(ss', r) := close_arrs names (vars (snd o)) (chs (snd o)) in
   (if list_eq_dec status_eq_dec ss' ss then true else false) && (if list_eq_dec chunk_eq_dec r C0 then true else false)).
Definition arr_chs (b : string) (names : list string) (ss : list status) : list chunk :=
  concat (map (fun e => match e with (a, Some (k, ds)) => [CArr a b k ds] | _ => [] end) (combine names ss)).
Fixpoint nodup_s (l : list string) : list string := match l with [] => [] | a :: l => if existsb (String.eqb a) l then nodup_s l else a :: nodup_s l end.
Fixpoint distinctb (l : list string) : bool := match l with [] => true | a :: l => negb (existsb (String.eqb a) l) && distinctb l end.
(** the numbers n, n+1, ... do not occur *)
Fixpoint all_fresh (np n len : nat) (vs : list (place * aval)) (cs : list chunk) : bool :=
  match len with 0 => true | S len => fresh np n vs cs && all_fresh np (S n) len vs cs end.
Definition chk_for (np : nat) (f : ast -> option outs) (b : string) (s : stmt) (A : ast) : option outs :=
  let names := nodup_s (arrs s) in
  let vs0 := filter is_V (vars A) in
  match open_arrs b names (nxt A) (chs A) with
  | None => None
  | Some (es, C0) =>
      let start vs := Ast (el_vars es ++ vs) (el_chs es ++ C0) (nxt A + length names) false in
      match f (start vs0) with
      | None => None
      | Some l1 =>
          let vs := keep_vars vs0 l1 in
          match f (start vs) with
          | Some ((t, A1) :: l2) =>
              let ss := fst (close_arrs names (vars A1) (chs A1)) in
              if plain s && distinctb names && all_fresh np (nxt A) (length names) vs C0 && (length ss =? length names) &&
                 forallb (for_round_ok names ss C0 vs) ((t, A1) :: l2)
              then Some [(TNorm, Ast vs (arr_chs b names ss ++ C0) (nxt A + length names) (leak A))] else None
          | _ => None
          end
      end
  end.

(** ** structures *)
(** the fields fs, taken from the state, make up the shape sh: the rest of the state, and what the fields point into *)
Fixpoint pack_shape (sh : list fshape) (fs : list field) (vs : list (place * aval)) (cs : list chunk) : option (list chunk * list dep) :=
  match sh, fs with
  | [], [] => Some (cs, [])
  | SOwn k :: sh, FV x :: fs =>
      match look (V x) vs with
      | Some (AOwn n) => match pull n cs with
          | Some (k', ds, r) => if keqb k k' then match pack_shape sh fs vs r with Some (r, ds') => Some (r, ds ++ ds') | None => None end else None
          | None => None end
      | _ => None
      end
  | SNull :: sh, FV x :: fs => match look (V x) vs with Some ANull => pack_shape sh fs vs cs | _ => None end
  | STwin k :: sh, FV x :: FV y :: fs =>
      match look (V x) vs, look (V y) vs with
      | Some (AOwn n), Some (AOwn m) => if n =? m then
          match pull n cs with
          | Some (k', ds, r) => if keqb k k' then match pack_shape sh fs vs r with Some (r, ds') => Some (r, ds ++ ds') | None => None end else None
          | None => None end else None
      | _, _ => None
      end
  | SArr k :: sh, FA a b :: fs =>
      match pull_arr a cs with
      | Some (b', k', ds, r) => if String.eqb b b' && keqb k k' then match pack_shape sh fs vs r with Some (r, ds') => Some (r, ds ++ ds') | None => None end else None
      | None => None
      end
  | SNone :: sh, FE :: fs => pack_shape sh fs vs cs
  | _, _ => None
  end.
Fixpoint pack_first (shs : list (list fshape)) (fs : list field) (vs : list (place * aval)) (cs : list chunk) : option (list chunk * list dep) :=
  match shs with [] => None | sh :: shs => match pack_shape sh fs vs cs with Some r => Some r | None => pack_first shs fs vs cs end end.
Definition win_deps (k : kind) : list dep := if is_win k then [DAny] else [].
Fixpoint unpack_shape (np : nat) (sh : list fshape) (fs : list field) (A : ast) : option ast :=
  match sh, fs with
  | [], [] => Some A
  | SOwn k :: sh, FV x :: fs => match alloc np (Some (V x)) k (win_deps k) A with Some A => unpack_shape np sh fs A | None => None end
  | SNull :: sh, FV x :: fs => match put_var (V x) ANull A with Some A => unpack_shape np sh fs A | None => None end
  | STwin k :: sh, FV x :: FV y :: fs =>
      match alloc np (Some (V x)) k (win_deps k) A with
      | Some A1 => match put_var (V y) (AOwn (nxt A)) A1 with Some A => unpack_shape np sh fs A | None => None end
      | None => None
      end
  | SArr k :: sh, FA a b :: fs =>
      if has_arr a (chs A) || has_bnd b (chs A) then None else
      unpack_shape np sh fs (Ast (vdel (El a) (vars A)) (CArr a b k (win_deps k) :: chs A) (nxt A) (leak A))
  | SNone :: sh, FE :: fs => unpack_shape np sh fs A
  | SNone :: sh, FA a b :: fs =>
      if has_arr a (chs A) || has_bnd b (chs A) then None else unpack_shape np sh fs (Ast (vdel (El a) (vars A)) (chs A) (nxt A) (leak A))
  | _, _ => None
  end.
Fixpoint unpack_all (np : nat) (shs : list (list fshape)) (fs : list field) (A : ast) : option outs :=
  match shs with [] => Some [] | sh :: shs => both (one (unpack_shape np sh fs A)) (unpack_all np shs fs A) end.

(** ** calls *)
Definition arg_aval (vs : list (place * aval)) (a : arg) : option aval := match a with AP p => look p vs | ANULL => Some ANull | AFLAG b => Some (AFlg b) end.
Fixpoint arg_avals (vs : list (place * aval)) (l : list arg) : option (list aval) :=
  match l with [] => Some [] | a :: l => match arg_aval vs a, arg_avals vs l with Some v, Some r => Some (v :: r) | _, _ => None end end.
(** the objects the callee takes over *)
Fixpoint give_away (ms : list mode) (vs : list aval) (cs : list chunk) : option (list chunk) :=
  match ms, vs with
  | [], [] => Some cs
  | MOwn k _ :: ms, AOwn n :: vs => match pull n cs with Some (k', _, r) => if keqb k k' then give_away ms vs r else None | None => None end
  | MOwn _ _ :: _, _ => None
  | _ :: ms, _ :: vs => give_away ms vs cs
  | _, _ => None
  end.
Fixpoint args_fit (ms : list mode) (vs : list aval) (cs : list chunk) : bool :=
  match ms, vs with
  | [], [] => true
  | m :: ms, v :: vs =>
      match m, v with
      | MBor, _ => live cs v
      | MNull, ANull => true
      | MFlag b, AFlg b' => Bool.eqb b b'
      | MOwn _ _, AOwn _ => true
      | _, _ => false
      end && args_fit ms vs cs
  | _, _ => false
  end.
Fixpoint given_back (ms : list mode) (vs : list aval) : list chunk :=
  match ms, vs with
  | MOwn _ (Some k) :: ms, AOwn n :: vs => CObj n k [] :: given_back ms vs
  | _ :: ms, _ :: vs => given_back ms vs
  | _, _ => []
  end.
Definition back_ok (ms : list mode) : bool := forallb (fun m => match m with MOwn _ (Some k) => negb (is_win k) | _ => true end) ms.
Definition into_deps (cs : list chunk) (vs : list aval) (into : list nat) : list dep :=
  concat (map (fun i => match nth_error vs i with Some v => val_deps cs v | None => [] end) into).
(** one state for each possible result *)
Fixpoint results (np : nat) (c : contract) (vs : list aval) (cs : list chunk) (dst : option place) (A : ast) (rs : list result) : option outs :=
  match rs with
  | [] => Some []
  | r :: rs =>
      both (one match r with
        | RVoid => match dst with None => Some A | Some _ => None end
        | RNull => match dst with None => Some A | Some p => put_var p ANull A end
        | RArg i => match nth_error (c_pre c) i, nth_error vs i with
            | Some (MOwn _ None), _ | _, None => None
            | Some _, Some v => match dst with None => Some A | Some p => put_var p v A end
            | _, _ => None end
        | RNew k into =>
            if forallb (fun i => match nth_error (c_pre c) i with Some MBor => true | _ => false end) into
            then alloc np dst k (into_deps cs vs into) A else None
        end) (results np c vs cs dst A rs)
  end.
Definition chk_call1 (np : nat) (c : contract) (dst : option place) (vs : list aval) (A : ast) : option outs :=
  match give_away (c_pre c) vs (chs A) with
  | Some cs =>
      if args_fit (c_pre c) vs cs && back_ok (c_pre c) then
        results np c vs cs dst (Ast (vars A) (given_back (c_pre c) vs ++ cs) (nxt A) (leak A || c_leak c)) (c_post c)
      else None
  | None => None
  end.
Fixpoint chk_call (np : nat) (cl : list contract) (dst : option place) (vs : list aval) (A : ast) : option outs :=
  match cl with [] => None | c :: cl => match chk_call1 np c dst vs A with Some r => Some r | None => chk_call np cl dst vs A end end.

Section Check.
Variable spec : string -> list contract.
Fixpoint chk (np : nat) (s : stmt) (A : ast) {struct s} : option outs :=
  match s with
  | Skip => Some [(TNorm, A)]
  | Seq s1 s2 => match chk np s1 A with Some l => andthen l (chk np s2) | None => None end
  | Malloc p k => if leaf_kind k && negb (is_win k) then one (alloc np (Some p) k [] A) else None
  | Window p k q =>
      match look q (vars A) with
      | Some v => if live (chs A) v && leaf_kind k && is_win k then one (alloc np (Some p) k (val_deps (chs A) v) A) else None
      | None => None
      end
  | Free p k =>
      match look p (vars A) with
      | Some (AOwn n) => match pull n (chs A) with
          | Some (k', _, r) => if relb k k' && leaf_kind k' then Some [(TNorm, Ast (vars A) r (nxt A) (leak A))] else None
          | None => None end
      | _ => None
      end
  | Use ps => if forallb (fun p => match look p (vars A) with Some v => live (chs A) v | None => false end) ps then Some [(TNorm, A)] else None
  | Set_ p q => match look q (vars A) with Some v => one (put_var p v A) | None => None end
  | SetNull p => one (put_var p ANull A)
  | SetFlag x b => one (put_var (V x) (AFlg b) A)
  | If s1 s2 => tidy np (both (chk np s1 A) (chk np s2 A))
  | IfNull p s1 s2 =>
      match look p (vars A) with
      | Some ANull => chk np s1 A
      | Some (ABor _) | Some (AOwn _) => chk np s2 A
      | _ => None
      end
  | IfFlag x s1 s2 => match look (V x) (vars A) with Some (AFlg b) => if b then chk np s1 A else chk np s2 A | _ => None end
  | IfSame p q s1 s2 =>
      match look p (vars A), look q (vars A) with
      | Some (AFlg _), _ | _, Some (AFlg _) | None, _ | _, None => None
      | Some ANull, Some ANull => chk np s1 A
      | Some ANull, Some _ | Some _, Some ANull => chk np s2 A
      | Some (AOwn n), Some (AOwn m) => if n =? m then chk np s1 A else
          match pull n (chs A) with
          | Some (_, _, r) => if has_site m r then chk np s2 A else both (chk np s1 A) (chk np s2 A)
          | None => both (chk np s1 A) (chk np s2 A) end
      | _, _ => both (chk np s1 A) (chk np s2 A)
      end
  | Loop s =>
      match chk np s A with
      | Some l =>
          let A1 := loop_start A l in
          match chk np s A1 with
          | Some l1 => if loop_ok A1 l1 then Some (loop_end A1 l1) else None
          | None => None
          end
      | None => None
      end
  | For b s => chk_for np (chk np s) b s A
  | ForFrom _ _ _ => None
  | Break => Some [(TBrk, A)]
  | Continue => Some [(TCont, A)]
  | Pack x k fs =>
      match look (V x) (vars A) with
      | Some (AOwn n) => match pull n (chs A) with
          | Some (KRaw, [], cs) => match pack_first (shapes k) fs (vars A) cs with
              | Some (cs, ds) => if is_win k || forallb (fun _ => false) ds then Some [(TNorm, Ast (vars A) (CObj n k ds :: cs) (nxt A) (leak A))] else None
              | None => None end
          | _ => None end
      | _ => None
      end
  | Unpack x fs =>
      match look (V x) (vars A) with
      | Some (AOwn n) => match pull n (chs A) with
          | Some (k, _, cs) => unpack_all np (shapes k) fs (Ast (vars A) (CObj n KRaw [] :: cs) (nxt A) (leak A))
          | _ => None end
      | _ => None
      end
  | Call dst f args => match arg_avals (vars A) args with Some vs => chk_call np (spec f) dst vs A | None => None end
  | Ret (Some p) => match look p (vars A) with Some v => Some [(TRet (Some v), A)] | None => None end
  | Ret None => Some [(TRet None, A)]
  | RetNull => Some [(TRet (Some ANull), A)]
  | Abort => Some []
  end.

(** ** functions *)
Fixpoint init_vars (i : nat) (ps : list string) (ms : list mode) : list (place * aval) :=
  match ps, ms with
  | p :: ps, m :: ms => (V p, match m with MBor => ABor i | MNull => ANull | MFlag b => AFlg b | MOwn _ _ => AOwn i end) :: init_vars (S i) ps ms
  | _, _ => []
  end.
Fixpoint init_chs (i : nat) (ms : list mode) : list chunk :=
  match ms with [] => [] | MOwn k _ :: ms => CObj i k (win_deps k) :: init_chs (S i) ms | _ :: ms => init_chs (S i) ms end.
Fixpoint pull_kept (i : nat) (ms : list mode) (cs : list chunk) : option (list chunk) :=
  match ms with
  | [] => Some cs
  | MOwn _ (Some k) :: ms => match pull i cs with Some (k', _, r) => if keqb k k' then pull_kept (S i) ms r else None | None => None end
  | _ :: ms => pull_kept (S i) ms cs
  end.
Definition rest_ok (c : contract) (A : ast) (cs : list chunk) : bool := c_leak c || (match cs with [] => true | _ => false end && negb (leak A)).
Definition result_ok (c : contract) (t : aout) (A : ast) (cs : list chunk) (r : result) : bool :=
  match r, t with
  | RVoid, TNorm | RVoid, TRet None | RNull, TRet (Some ANull) => rest_ok c A cs
  | RArg i, TRet (Some (ABor j)) => (i =? j) && rest_ok c A cs
  | RArg i, TRet (Some (AOwn n)) => (i =? n) && (i <? length (c_pre c)) && match nth_error (c_pre c) i with Some (MOwn _ _) => true | _ => false end && rest_ok c A cs
  | RNew k into, TRet (Some (AOwn n)) =>
      match pull n cs with
      | Some (k', ds, r) => keqb k k' && forallb (fun d => match d with DBor i => existsb (Nat.eqb i) into | _ => false end) ds && rest_ok c A r
      | None => false
      end
  | _, _ => false
  end.
Definition out_ok (c : contract) (o : aout * ast) : bool :=
  match pull_kept 0 (c_pre c) (chs (snd o)) with
  | Some cs => existsb (result_ok c (fst o) (snd o) cs) (c_post c)
  | None => false
  end.
Definition check_fn (b : fn) (c : contract) : bool :=
  (length (fn_params b) =? length (c_pre c)) && distinctb (fn_params b) &&
  match chk (length (c_pre c)) (fn_body b) (Ast (init_vars 0 (fn_params b) (c_pre c)) (init_chs 0 (c_pre c)) (length (c_pre c)) false) with
  | Some l => forallb (out_ok c) l
  | None => false
  end.
End Check.
