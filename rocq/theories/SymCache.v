(** * Units used from many threads: Unit._cached_symbolic_definition, pyudunits2/_unit.py:341,383-400

    Convert.v computes the symbolic definition of a unit anew each time.  The code keeps it in an
    attribute of the unit, which Converter.__init__ and Unit.__eq__ read and write.  Here these are
    programs that access the attribute step by step; the steps of any number of threads are
    interleaved arbitrarily, each access being atomic as under CPython's GIL.  Everything else a unit
    holds is never written after __init__. *)
From Verif Require Import PyBase PyNum Graph Expr Units Sympy Convert.

(** the pair kept in _cached_symbolic_definition, _unit.py:349, 399 *)
Definition symdef := (sexpr * sexpr)%type.

(** The attribute of every unit object: None, or what was stored last. *)
Definition caches := list (option symdef).
Definition load (c : caches) (i : nat) : option symdef := nth i c None.
Fixpoint store (c : caches) (i : nat) (v : symdef) : caches :=
  match c, i with
  | [], _ => []
  | _ :: c', O => Some v :: c'
  | x :: c', S i' => x :: store c' i' v
  end.

(** Programs *)
Inductive job (A : Type) : Type :=
| Return (r : res A)
| Load (i : nat) (k : option symdef -> job A)
| Store (i : nat) (v : symdef) (k : job A).
Arguments Return {A} r.
Arguments Load {A} i k.
Arguments Store {A} i v k.

(** one program after the other *)
Fixpoint jbind {A B} (p : job A) (f : A -> job B) : job B :=
  match p with
  | Return (Ok a) => f a
  | Return (Err e) => Return (Err e)
  | Load i k => Load i (fun o => jbind (k o) f)
  | Store i v k => Store i v (jbind k f)
  end.

Section Code.
Variable objects : list unit.       (* the Unit objects; each has its attribute *)
Definition object (i : nat) : unit := nth i objects (UBasis [] false false).

(** What a Converter is asked for: a Unit, or a DateUnit around one.  Several may share one Unit. *)
Inductive handle := HUnit (i : nat) | HDate (i : nat) (reference_date : str).
Definition cell (h : handle) : nat := match h with HUnit i => i | HDate i _ => i end.
Definition any (h : handle) : anyunit :=
  match h with HUnit i => AUnit (object i) | HDate i r => ADate (object i) r end.

(** _symbolic_definition, 383-400; a None at the return would be an error in the caller, outside
    the model.  A DateUnit asks its unit, 511-513. *)
Definition j_symbolic (i : nat) : job symdef :=
  let return_it := Load i (fun o => Return (of_option o EOutOfModel)) in          (* 400 *)
  Load i (fun o =>                                                                (* 384 *)
    match o with
    | Some _ => return_it
    | None => match symbolic (object i) with                               (* 385-397 *)
              | Ok v => Store i v return_it                                       (* 399 *)
              | Err e => Return (Err e)
              end
    end).

(** What sympy makes of a pair of expressions (Convert.normal_form) *)
Definition normalise (td : symdef) : res (chain * mono) :=
  do c <- of_option (chain_of (fst td)) EOutOfModel ;;
  do m <- of_option (mono_of (snd td)) EOutOfModel ;;
  Ok (c, m).

(** reading self._symbolic_definition() and what sympy makes of it *)
Definition j_normal_form (i : nat) : job (chain * mono) :=
  jbind (j_symbolic i) (fun td => Return (normalise td)).

(** Unit.__eq__ of two Unit objects, 364-381 *)
Definition j_eq (i j : nat) : job bool :=
  let x := object i in let y := object j in
  if str_eqb (node_str (definition_of y)) (node_str (definition_of x)) then Return (Ok true)
  else
    jbind (j_normal_form i) (fun n1 =>
    jbind (j_normal_form j) (fun n2 =>
    Return (Ok (mono_eqb (snd n1) (snd n2) &&
                chain_eqb (chain_norm (fst n1)) (chain_norm (fst n2)))))).

(** Dictionaries with BasisUnit keys (all hashes are 1) call __eq__ on some pairs of basis units
    while they are built and compared: [probes] are the pairs, in order.  An exception in one of
    them ends the operation. *)
Fixpoint j_probes (l : list (nat * nat)) : job (list bool) :=
  match l with
  | [] => Return (Ok [])
  | (i, j) :: l' => jbind (j_eq i j) (fun b => jbind (j_probes l') (fun bs => Return (Ok (b :: bs))))
  end.

(** Converter.__init__, 187-236 *)
Definition j_converter (g h : handle) (probes : list (nat * nat)) : job converter :=
  let a := any g in let b := any h in
  jbind (j_probes probes) (fun _ =>
  jbind (Return (dimensionality a)) (fun da =>
  jbind (Return (dimensionality b)) (fun db =>
  jbind (Return (dimval_inv da)) (fun ia =>
  let direct := dimval_eqb da db in
  let inverted := dimval_eqb ia db in
  if negb (direct || inverted) then Return (Err EIncompatible)
  else
    jbind (j_normal_form (cell g)) (fun n1 =>
    jbind (j_normal_form (cell h)) (fun n2 =>
    Return (
      do solved <- of_option (chain_inv (chain_norm (fst n1))) EAssertion ;;
      if direct then
        do k <- of_option (obind (mono_inv (snd n2)) (fun i => Some (mono_mul (snd n1) i)))
                          EOutOfModel ;;
        Ok (mkConv (chain_norm (solved ++ [OpScale k] ++ fst n2)))
      else
        let k := mono_mul (snd n1) (snd n2) in
        if Q_is0 (m_coef k) then Err EOutOfModel
        else Ok (mkConv (chain_norm (solved ++ [OpScale k; OpRecip] ++ fst n2)))))))))).

(** ** Threads: each makes a list of requests, one after the other *)
Inductive request :=
| Equal (i j : nat)                                   (* object i == object j *)
| Convert (g h : handle) (probes : list (nat * nat)). (* Converter(g, h) *)
Inductive answer := IsEqual (r : res bool) | Converts (r : res converter).

Definition amap {A} (f : res A -> answer) (p : job A) : job answer :=
  (fix go (p : job A) : job answer :=
     match p with
     | Return r => Return (Ok (f r))
     | Load i k => Load i (fun o => go (k o))
     | Store i v k => Store i v (go k)
     end) p.

(** what a thread does for a request: Unit.__eq__ (364-381) or Converter (97-236) *)
Definition program (q : request) : job answer :=
  match q with
  | Equal i j => amap IsEqual (j_eq i j)
  | Convert g h probes => amap Converts (j_converter g h probes)
  end.

(** a thread: its request and what it still has to do *)
Record thread := mkThread {
  t_now : option (request * job answer);        (* the request under way and what is left of it *)
  t_todo : list request;
  t_log : list (request * res answer)           (* finished requests with their answers, last first *)
}.
Record state := mkState { st_caches : caches; st_threads : list thread }.

(** One step of one thread *)
Inductive tstep : caches -> thread -> caches -> thread -> Prop :=
| Begin c q l log : tstep c (mkThread None (q :: l) log) c (mkThread (Some (q, program q)) l log)
| StepLoad c q i k l log :
    tstep c (mkThread (Some (q, Load i k)) l log) c (mkThread (Some (q, k (load c i))) l log)
| StepStore c q i v k l log :
    tstep c (mkThread (Some (q, Store i v k)) l log) (store c i v) (mkThread (Some (q, k)) l log)
| Finish c q r l log :
    tstep c (mkThread (Some (q, Return r)) l log) c (mkThread None l ((q, r) :: log)).

(** one step of one thread *)
Inductive step : state -> state -> Prop :=
| Step c c' before t t' after : tstep c t c' t' ->
    step (mkState c (before ++ t :: after)) (mkState c' (before ++ t' :: after)).

(** any number of them *)
Inductive steps : state -> state -> Prop :=
| Same s : steps s s
| Then s s' s'' : steps s s' -> step s' s'' -> steps s s''.

(** All attributes are None at first, 341 *)
Definition initial (work : list (list request)) : state :=
  mkState (map (fun _ => None) objects) (map (fun l => mkThread None l []) work).
End Code.
