(** The lifetime of objects: a small imperative language into which the functions of the library are transcribed (file
    MemLib.v), with a big-step semantics over an explicit heap, and contracts.

    A transcription keeps of a C function: its pointer variables, the allocations, the releases, the uses (every dereference
    and every passing of a pointer to a function), the assignments of pointers, the calls, the returns, and the control flow.
    Conditions on data are forgotten: [If] takes either branch and [Loop] any number of rounds.  Tests of a pointer against
    NULL, tests of two pointers for equality and tests of 0/1 flags are kept.

    An execution is an error when it uses, releases or passes on a pointer that is not initialised or is NULL or points to an
    object that was released; when it uses a window into an object that was released; when it releases an object with the
    function for another sort of object, or an object that still owns others; when it builds a structure or takes one apart
    that does not have the fields expected; when a function that should return a value does not.  Definitions only. *)
From Coq Require Import String List Bool Arith.
Import ListNotations.
Local Open Scope nat_scope.

Definition loc := nat.
(** what an object was made by *)
Inductive kind :=
| KRaw                    (** m4ri_mm_malloc, m4ri_mm_calloc *)
| KMzd | KMzdWin          (** mzd_init; mzd_init_window *)
| KMzp | KMzpWin          (** mzp_init; mzp_init_window *)
| KDjb                    (** djb_compile *)
| KMzed | KMzedWin        (** mzed_t: a matrix; a window *)
| KSlice | KSliceWin      (** mzd_slice_t: a matrix; a window *)
| KPoly                   (** mzd_poly_t *)
| KNjt                    (** njt_mzed_t *)
| KField                  (** gf2e *)
| KBlm0 | KBlm1           (** blm_t with F and G set; with H set *)
| KBlmM | KBlmC.          (** blm_t that is complete, without and with straight-line programs *)
Inductive val := VUndef | VPtr (p : option loc) | VFlag (b : bool).
(** an object: its kind, the objects whose memory it points into (for windows), and what the structure owns, by field: a field
    is a list of slots (one, or one for each entry of an array); a slot has the value of the pointer and the object it owns *)
Inductive obj := Obj (k : kind) (deps : list loc) (fields : list (list slot))
with slot := Slot (v : val) (o : option obj).
Definition okind (o : obj) : kind := let 'Obj k _ _ := o in k.
Definition odeps (o : obj) : list loc := let 'Obj _ ds _ := o in ds.
Definition heap := loc -> option obj.
Definition hset (h : heap) (l : loc) (o : option obj) : heap := fun l' => if l' =? l then o else h l'.
Definition usable (h : heap) (l : loc) : Prop := exists o, h l = Some o /\ forall d, In d (odeps o) -> h d <> None.
(** the memory a window into the object points into: a window into a window points into the original *)
Definition roots (h : heap) (l : loc) : list loc := match h l with Some (Obj _ [] _) => [l] | Some (Obj _ ds _) => ds | None => [] end.
(** the release function for the kind k accepts the kind k': M4RI defines mzd_free_window as mzd_free *)
Definition releases (k k' : kind) : Prop := k = k' \/ (k = KMzd /\ k' = KMzdWin).

(** a pointer variable, or the entry of an array at the index of the enclosing [For] *)
Inductive place := V (x : string) | El (a : string).
(** the fields of a structure: pointer variables, arrays with the name of their length, or a field that is not in use *)
Inductive field := FV (x : string) | FA (a b : string) | FE.
Inductive arg := AP (p : place) | ANULL | AFLAG (b : bool).
Inductive stmt :=
| Skip
| Seq (s1 s2 : stmt)
| Malloc (p : place) (k : kind)             (** p = new object *)
| Window (p : place) (k : kind) (q : place) (** p = new window into q *)
| Free (p : place) (k : kind)               (** release, with the function for kind k *)
| Use (ps : list place)
| Set_ (p q : place)
| SetNull (p : place)
| SetFlag (x : string) (b : bool)
| If (s1 s2 : stmt)
| IfNull (p : place) (s1 s2 : stmt)
| IfFlag (x : string) (s1 s2 : stmt)
| IfSame (p q : place) (s1 s2 : stmt)
| Loop (s : stmt)
| For (b : string) (s : stmt)               (** for all indices below the number named b *)
| ForFrom (i : nat) (b : string) (s : stmt) (** (the rest of such a loop) *)
| Break | Continue
| Pack (x : string) (k : kind) (fs : list field)  (** the structure x is complete: its fields now belong to it *)
| Unpack (x : string) (fs : list field)           (** the fields of x become variables *)
| Call (dst : option place) (f : string) (args : list arg)
| Ret (p : option place)
| RetNull
| Abort.                                    (** m4ri_die *)
Record fn := Fn { fn_params : list string; fn_body : stmt }.

Record env := Env { e_var : string -> val; e_arr : string -> nat -> val; e_bnd : string -> nat; e_idx : nat }.
Definition set_var (e : env) (x : string) (v : val) : env := Env (fun y => if String.eqb y x then v else e_var e y) (e_arr e) (e_bnd e) (e_idx e).
Definition set_el (e : env) (a : string) (i : nat) (v : val) : env :=
  Env (e_var e) (fun b j => if String.eqb b a && (j =? i) then v else e_arr e b j) (e_bnd e) (e_idx e).
Definition set_idx (e : env) (i : nat) : env := Env (e_var e) (e_arr e) (e_bnd e) i.
Definition set_arr (e : env) (a b : string) (vs : list val) : env :=
  Env (e_var e) (fun a' j => if String.eqb a' a then nth j vs VUndef else e_arr e a' j) (fun b' => if String.eqb b' b then length vs else e_bnd e b') (e_idx e).
Definition get (e : env) (p : place) : val := match p with V x => e_var e x | El a => e_arr e a (e_idx e) end.
Definition put (e : env) (p : place) (v : val) : env := match p with V x => set_var e x v | El a => set_el e a (e_idx e) v end.

Inductive outcome := ONorm | OBrk | OCont | ORet (v : val) | ODie | OErr.
Definition usable_val (h : heap) (v : val) : Prop := exists l, v = VPtr (Some l) /\ usable h l.
Definition arg_val (e : env) (a : arg) : val := match a with AP p => get e p | ANULL => VPtr None | AFLAG b => VFlag b end.
Fixpoint bind_params (ps : list string) (vs : list val) (x : string) : val :=
  match ps, vs with p :: ps, v :: vs => if String.eqb x p then v else bind_params ps vs x | _, _ => VUndef end.
(** the value moves into the structure, with the object if it is still in the heap *)
Definition take (h : heap) (v : val) : slot * heap :=
  match v with
  | VPtr (Some l) => (Slot v (h l), hset h l None)
  | _ => (Slot v None, h)
  end.
Fixpoint take_all (h : heap) (vs : list val) : list slot * heap :=
  match vs with [] => ([], h) | v :: vs => let '(s, h) := take h v in let '(ss, h) := take_all h vs in (s :: ss, h) end.
Fixpoint pack_fields (e : env) (h : heap) (fs : list field) : list (list slot) * heap :=
  match fs with
  | [] => ([], h)
  | f :: fs =>
      let vs := match f with FV x => [e_var e x] | FA a b => map (e_arr e a) (seq 0 (e_bnd e b)) | FE => [] end in
      let '(ss, h) := take_all h vs in let '(r, h) := pack_fields e h fs in (ss :: r, h)
  end.
Definition slot_deps (s : slot) : list loc := match s with Slot _ (Some o) => odeps o | _ => [] end.
Definition slot_val (s : slot) : val := let 'Slot v _ := s in v.
(** the inverse.  (An object inside a structure keeps its address: no other object has it.  Executions that would give the
    address away are impossible, and have no successor here.) *)
Inductive give : list slot -> heap -> heap -> Prop :=
| give_nil h : give [] h h
| give_own l o ss h h' : h l = None -> give ss (hset h l (Some o)) h' -> give (Slot (VPtr (Some l)) (Some o) :: ss) h h'
| give_val v ss h h' : give ss h h' -> give (Slot v None :: ss) h h'.
Inductive unpack_fields : list field -> list (list slot) -> env -> heap -> env -> heap -> Prop :=
| up_nil e h : unpack_fields [] [] e h e h
| up_var x s fs r e h h1 e' h' : give [s] h h1 -> unpack_fields fs r (set_var e x (slot_val s)) h1 e' h' ->
    unpack_fields (FV x :: fs) ([s] :: r) e h e' h'
| up_arr a b ss fs r e h h1 e' h' : give ss h h1 -> unpack_fields fs r (set_arr e a b (map slot_val ss)) h1 e' h' ->
    unpack_fields (FA a b :: fs) (ss :: r) e h e' h'
| up_none fs r e h e' h' : unpack_fields fs r e h e' h' -> unpack_fields (FE :: fs) ([] :: r) e h e' h'.
(** as many fields as the structure has, of the same sort *)
Definition fits (fs : list field) (r : list (list slot)) : Prop :=
  Forall2 (fun f ss => match f with FV _ => exists s, ss = [s] | FA _ _ => True | FE => ss = [] end) fs r.

Section Semantics.
Variable prog : string -> option fn.
Inductive exec : stmt -> env -> heap -> outcome -> env -> heap -> Prop :=
| x_skip e h : exec Skip e h ONorm e h
| x_seq s1 s2 e h e1 h1 o e2 h2 : exec s1 e h ONorm e1 h1 -> exec s2 e1 h1 o e2 h2 -> exec (Seq s1 s2) e h o e2 h2
| x_seq_stop s1 s2 e h o e1 h1 : exec s1 e h o e1 h1 -> o <> ONorm -> exec (Seq s1 s2) e h o e1 h1
| x_malloc p k e h l : h l = None -> exec (Malloc p k) e h ONorm (put e p (VPtr (Some l))) (hset h l (Some (Obj k [] [])))
| x_window p k q e h l l0 : get e q = VPtr (Some l0) -> usable h l0 -> h l = None ->
    exec (Window p k q) e h ONorm (put e p (VPtr (Some l))) (hset h l (Some (Obj k (roots h l0) [])))
| x_window_err p k q e h : ~ usable_val h (get e q) -> exec (Window p k q) e h OErr e h
| x_free p k e h l k' ds : get e p = VPtr (Some l) -> h l = Some (Obj k' ds []) -> releases k k' -> exec (Free p k) e h ONorm e (hset h l None)
| x_free_err p k e h : (forall l k' ds, get e p = VPtr (Some l) -> h l = Some (Obj k' ds []) -> ~ releases k k') -> exec (Free p k) e h OErr e h
| x_use ps e h : (forall p, In p ps -> usable_val h (get e p)) -> exec (Use ps) e h ONorm e h
| x_use_err ps p e h : In p ps -> ~ usable_val h (get e p) -> exec (Use ps) e h OErr e h
| x_set p q e h : get e q <> VUndef -> exec (Set_ p q) e h ONorm (put e p (get e q)) h
| x_set_err p q e h : get e q = VUndef -> exec (Set_ p q) e h OErr e h
| x_setnull p e h : exec (SetNull p) e h ONorm (put e p (VPtr None)) h
| x_setflag x b e h : exec (SetFlag x b) e h ONorm (set_var e x (VFlag b)) h
| x_if1 s1 s2 e h o e1 h1 : exec s1 e h o e1 h1 -> exec (If s1 s2) e h o e1 h1
| x_if2 s1 s2 e h o e1 h1 : exec s2 e h o e1 h1 -> exec (If s1 s2) e h o e1 h1
| x_ifnull1 p s1 s2 e h o e1 h1 : get e p = VPtr None -> exec s1 e h o e1 h1 -> exec (IfNull p s1 s2) e h o e1 h1
| x_ifnull2 p s1 s2 e h o e1 h1 l : get e p = VPtr (Some l) -> exec s2 e h o e1 h1 -> exec (IfNull p s1 s2) e h o e1 h1
| x_ifnull_err p s1 s2 e h : (forall q, get e p <> VPtr q) -> exec (IfNull p s1 s2) e h OErr e h
| x_ifflag1 x s1 s2 e h o e1 h1 : e_var e x = VFlag true -> exec s1 e h o e1 h1 -> exec (IfFlag x s1 s2) e h o e1 h1
| x_ifflag2 x s1 s2 e h o e1 h1 : e_var e x = VFlag false -> exec s2 e h o e1 h1 -> exec (IfFlag x s1 s2) e h o e1 h1
| x_ifflag_err x s1 s2 e h : (forall b, e_var e x <> VFlag b) -> exec (IfFlag x s1 s2) e h OErr e h
| x_ifsame1 p q s1 s2 e h o e1 h1 a : get e p = VPtr a -> get e q = VPtr a -> exec s1 e h o e1 h1 -> exec (IfSame p q s1 s2) e h o e1 h1
| x_ifsame2 p q s1 s2 e h o e1 h1 a b : get e p = VPtr a -> get e q = VPtr b -> a <> b -> exec s2 e h o e1 h1 -> exec (IfSame p q s1 s2) e h o e1 h1
| x_ifsame_err p q s1 s2 e h : (forall a b, get e p = VPtr a -> get e q <> VPtr b) -> exec (IfSame p q s1 s2) e h OErr e h
| x_loop0 s e h : exec (Loop s) e h ONorm e h
| x_loopS s e h o1 e1 h1 o e2 h2 : exec s e h o1 e1 h1 -> o1 = ONorm \/ o1 = OCont -> exec (Loop s) e1 h1 o e2 h2 -> exec (Loop s) e h o e2 h2
| x_loop_break s e h e1 h1 : exec s e h OBrk e1 h1 -> exec (Loop s) e h ONorm e1 h1
| x_loop_stop s e h o e1 h1 : exec s e h o e1 h1 -> o <> ONorm -> o <> OCont -> o <> OBrk -> exec (Loop s) e h o e1 h1
| x_for b s e h o e1 h1 : exec (ForFrom 0 b s) e h o e1 h1 -> exec (For b s) e h o (set_idx e1 (e_idx e)) h1
| x_from_end i b s e h : e_bnd e b <= i -> exec (ForFrom i b s) e h ONorm e h
| x_from i b s e h e1 h1 o e2 h2 : i < e_bnd e b -> exec s (set_idx e i) h ONorm e1 h1 -> exec (ForFrom (S i) b s) e1 h1 o e2 h2 ->
    exec (ForFrom i b s) e h o e2 h2
| x_from_stop i b s e h o e1 h1 : i < e_bnd e b -> exec s (set_idx e i) h o e1 h1 -> o <> ONorm -> exec (ForFrom i b s) e h o e1 h1
| x_break e h : exec Break e h OBrk e h
| x_continue e h : exec Continue e h OCont e h
| x_pack x k fs e h l ds r h1 : e_var e x = VPtr (Some l) -> h l = Some (Obj KRaw ds []) -> pack_fields e h fs = (r, h1) ->
    exec (Pack x k fs) e h ONorm e (hset h1 l (Some (Obj k (ds ++ concat (map slot_deps (concat r))) r)))
| x_pack_err x k fs e h : (forall l ds, e_var e x = VPtr (Some l) -> h l <> Some (Obj KRaw ds [])) -> exec (Pack x k fs) e h OErr e h
| x_unpack x fs e h l k ds r e1 h1 : e_var e x = VPtr (Some l) -> h l = Some (Obj k ds r) ->
    unpack_fields fs r e (hset h l (Some (Obj KRaw [] []))) e1 h1 -> exec (Unpack x fs) e h ONorm e1 h1
| x_unpack_err x fs e h : (forall l k ds r, e_var e x = VPtr (Some l) -> h l = Some (Obj k ds r) -> ~ fits fs r) -> exec (Unpack x fs) e h OErr e h
| x_call dst f args e h b vs e0 o e1 h1 : prog f = Some b -> vs = map (arg_val e) args -> ~ In VUndef vs -> length vs = length (fn_params b) ->
    (forall x, e_var e0 x = bind_params (fn_params b) vs x) -> (forall a i, e_arr e0 a i = VUndef) ->
    exec (fn_body b) e0 h o e1 h1 ->
    exec (Call dst f args) e h
      (match o, dst with
       | ONorm, None | ORet _, None => ONorm
       | ORet v, Some _ => match v with VUndef => OErr | _ => ONorm end
       | ODie, _ => ODie
       | _, _ => OErr
       end)
      (match o, dst with ORet v, Some p => put e p v | _, _ => e end) h1
| x_call_err dst f args e h : prog f = None \/ In VUndef (map (arg_val e) args) \/ (forall b, prog f = Some b -> length args <> length (fn_params b)) ->
    exec (Call dst f args) e h OErr e h
| x_ret p e h : get e p <> VUndef -> exec (Ret (Some p)) e h (ORet (get e p)) e h
| x_ret_err p e h : get e p = VUndef -> exec (Ret (Some p)) e h OErr e h
| x_ret_void e h : exec (Ret None) e h (ORet VUndef) e h
| x_ret_null e h : exec RetNull e h (ORet (VPtr None)) e h
| x_abort e h : exec Abort e h ODie e h.

(** ** What a function does to the heap *)
(** a call of the function f with the arguments vs *)
Definition call (f : string) (vs : list val) (h : heap) (o : outcome) (h' : heap) : Prop :=
  exists b e0 e1, prog f = Some b /\ length vs = length (fn_params b) /\ (forall x, e_var e0 x = bind_params (fn_params b) vs x) /\
    (forall a i, e_arr e0 a i = VUndef) /\ exec (fn_body b) e0 h o e1 h'.
End Semantics.

(** what a field of a structure owns: an object; nothing (NULL); the object of the next field, too; one object for each entry;
    nothing (the field is not set) *)
Inductive fshape := SOwn (k : kind) | SNull | STwin (k : kind) | SArr (k : kind) | SNone.
(** the fields of the structures; several lines if there are several possibilities *)
Definition shapes (k : kind) : list (list fshape) :=
  match k with
  | KRaw | KMzd | KMzdWin | KMzp | KMzpWin | KDjb => [[]]
  | KMzed => [[SOwn KMzd]]                                   (** x: mzed.h:46-72 *)
  | KMzedWin => [[SOwn KMzdWin]]
  | KSlice => [[SArr KMzd]]                                  (** x[0] .. x[depth-1]: mzd_slice.h:37-61 *)
  | KSliceWin => [[SArr KMzdWin]]
  | KPoly => [[SOwn KRaw; SArr KMzd]]                        (** x; x[0] .. x[depth-1]: mzd_poly.h *)
  | KNjt => [[SOwn KRaw; SOwn KMzed; SOwn KMzed]]            (** L, T, M: newton_john.h *)
  | KField => [[SOwn KRaw; SOwn KRaw; SOwn KRaw; SArr KRaw]  (** red, pow_gen, _mul; _mul[0] .. _mul[2^degree-1] (degree up to 8) *)
              ;[SOwn KRaw; SOwn KRaw; SNull; SNone]]         (** no multiplication table *)
  | KBlm0 => [[SOwn KMzd; SOwn KMzd; SNone; SNull; SNull; SNone]]          (** F, G; f = g = NULL: blm.h *)
  | KBlm1 => [[SOwn KMzd; SOwn KMzd; SOwn KMzd; SNull; SNull; SNone]]      (** F, G, H *)
  | KBlmM => [[SOwn KMzd; SOwn KMzd; SOwn KMzd; SNull; SNull; SNull]]      (** h = NULL, too *)
  | KBlmC => [[SOwn KMzd; SOwn KMzd; SOwn KMzd; STwin KDjb; SOwn KDjb]     (** F, G, H, f = g, h *)
             ;[SOwn KMzd; SOwn KMzd; SOwn KMzd; SOwn KDjb; SOwn KDjb; SOwn KDjb]]
  end.
(** windows point into the memory of another object *)
Definition is_win (k : kind) : bool := match k with KMzdWin | KMzpWin | KMzedWin | KSliceWin => true | _ => false end.
(** the object is of the kind, and owns what that kind owns *)
Inductive is_obj : kind -> obj -> Prop :=
| is_obj_intro k ds r sh : In sh (shapes k) -> is_fields sh r -> (is_win k = false -> ds = []) -> is_obj k (Obj k ds r)
with is_fields : list fshape -> list (list slot) -> Prop :=
| if_nil : is_fields [] []
| if_own k l o sh r : is_obj k o -> is_fields sh r -> is_fields (SOwn k :: sh) ([Slot (VPtr (Some l)) (Some o)] :: r)
| if_null sh r : is_fields sh r -> is_fields (SNull :: sh) ([Slot (VPtr None) None] :: r)
| if_twin k l o sh r : is_obj k o -> is_fields sh r -> is_fields (STwin k :: sh) ([Slot (VPtr (Some l)) (Some o)] :: [Slot (VPtr (Some l)) None] :: r)
| if_arr k ss sh r : is_slots k ss -> is_fields sh r -> is_fields (SArr k :: sh) (ss :: r)
| if_none sh r : is_fields sh r -> is_fields (SNone :: sh) ([] :: r)
with is_slots : kind -> list slot -> Prop :=
| is_nil k : is_slots k []
| is_cons k l o ss : is_obj k o -> is_slots k ss -> is_slots k (Slot (VPtr (Some l)) (Some o) :: ss).

(** how a parameter is passed: an object that the function uses and leaves alone; NULL; a flag; an object of a given kind that
    the function takes over and releases ([None]) or turns into another kind *)
Inductive mode := MBor | MNull | MFlag (b : bool) | MOwn (k : kind) (after : option kind).
(** what is returned: nothing; NULL; one of the arguments; a new object, possibly a window into some of the arguments *)
Inductive result := RVoid | RNull | RArg (i : nat) | RNew (k : kind) (into : list nat).
(** [c_leak]: objects may be left behind *)
Record contract := Contract { c_pre : list mode; c_post : list result; c_leak : bool }.

(** the object at l is one that the function takes over *)
Definition taken (ms : list mode) (vs : list val) (l : loc) : Prop :=
  exists i k a, nth_error ms i = Some (MOwn k a) /\ nth_error vs i = Some (VPtr (Some l)).
(** it is one that the function gives back *)
Definition kept (ms : list mode) (vs : list val) (l : loc) : Prop :=
  exists i k k', nth_error ms i = Some (MOwn k (Some k')) /\ nth_error vs i = Some (VPtr (Some l)).
(** before the call the heap consists of F and of the objects that the function takes over *)
Definition pre (ms : list mode) (vs : list val) (h F : heap) : Prop :=
  length vs = length ms /\
  (forall l o, F l = Some o <-> h l = Some o /\ ~ taken ms vs l) /\
  (forall i m v, nth_error ms i = Some m -> nth_error vs i = Some v ->
     match m with
     | MBor => usable_val F v
     | MNull => v = VPtr None
     | MFlag b => v = VFlag b
     | MOwn k _ => exists l o, v = VPtr (Some l) /\ h l = Some o /\ is_obj k o
     end) /\
  (forall i j k k' a a' v, nth_error ms i = Some (MOwn k a) -> nth_error ms j = Some (MOwn k' a') -> nth_error vs i = Some v -> nth_error vs j = Some v -> i = j).
(** afterwards the heap has F as before, the objects to be given back, the new object, and nothing else (unless [c_leak]) *)
Definition post (c : contract) (vs : list val) (F : heap) (v : val) (h' : heap) : Prop :=
  (forall l o, F l = Some o -> h' l = Some o) /\
  (forall i k k' l, nth_error (c_pre c) i = Some (MOwn k (Some k')) -> nth_error vs i = Some (VPtr (Some l)) -> exists o, h' l = Some o /\ is_obj k' o) /\
  exists r, In r (c_post c) /\
    (match r with
     | RVoid => v = VUndef
     | RNull => v = VPtr None
     | RArg i => nth_error vs i = Some v
     | RNew k into => exists l o, v = VPtr (Some l) /\ h' l = Some o /\ is_obj k o /\ F l = None /\ ~ kept (c_pre c) vs l /\
         forall d, In d (odeps o) -> exists i l', In i into /\ nth_error vs i = Some (VPtr (Some l')) /\ In d (roots F l')
     end) /\
    (forall l o, h' l = Some o -> F l = Some o \/ kept (c_pre c) vs l \/ (exists k into, r = RNew k into /\ v = VPtr (Some l)) \/ c_leak c = true).
(** every call that meets the precondition: no error, and if it returns, the postcondition *)
Definition satisfies (prog : string -> option fn) (f : string) (c : contract) : Prop :=
  forall vs h F o h', pre (c_pre c) vs h F -> call prog f vs h o h' ->
    o = ODie \/ (o = ONorm /\ post c vs F VUndef h') \/ exists v, o = ORet v /\ post c vs F v h'.
