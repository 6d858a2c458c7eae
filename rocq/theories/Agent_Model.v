(** Model of Agent and its decorators (toffee/agent.py) and of Env.__config_agent_name (toffee/env.py:91-108): which function runs when a
    driver method is called, which monitor tasks an agent starts, and which path a driver or monitor knows itself by.

    A class is its namespace, an agent the instance attributes set before Agent.__init__ and the namespaces of its classes in
    method resolution order; an attribute holds a decorated function, another function or something else.  dir() is the sorted list of
    all names, getattr looks at the instance and then at the classes (functions are non-data descriptors).  Left out: attributes of [object] (none is
    decorated), properties and other descriptors, __getattr__, multiple decorators on one function, the bundle. *)
From Coq Require Import List String Bool Arith.
From Verif Require Import Py.
Import ListNotations.
Open Scope string_scope.
Open Scope list_scope.

(** A function object: __name__, and which one it is. *)
Record func := mk_func { f_name : string; f_id : nat }.
(** agent.py:126-135, 152-161: [Drv f] is the wrapper of driver_method around [f], [Mon f] that of monitor_method; functools.wraps gives it the __name__
    and the flag of [f].  [Fun f]: an undecorated function; [Obj]: anything else. *)
Inductive value := Drv (f : func) | Mon (f : func) | Fun (f : func) | Obj.
Definition ns := dict value.
Record agent_ := mk_agent_ { a_inst : ns; a_mro : list ns }.

(** dir(): sorted, without duplicates. *)
Fixpoint insert (x : string) (l : list string) : list string :=
  match l with
  | [] => [x]
  | y :: t => match String.compare x y with Lt => x :: l | Eq => l | Gt => y :: insert x t end
  end.
Definition sorted_names (l : list string) : list string := fold_right insert [] l.
Fixpoint lookup (l : list ns) (n : string) : option value :=
  match l with [] => None | d :: t => match dget d n with Some v => Some v | None => lookup t n end end.
Definition spaces (a : agent_) : list ns := a_inst a :: a_mro a.
Definition getattr (a : agent_) (n : string) : option value := lookup (spaces a) n.
Definition dir (a : agent_) : list string := sorted_names (flat_map dkeys (spaces a)).

(** agent.py:80-102 [all_driver_method, all_monitor_method] (their __original_func__). *)
Definition all_driver_method (a : agent_) : list func := flat_map (fun n => match getattr a n with Some (Drv f) => [f] | _ => [] end) (dir a).
Definition all_monitor_method (a : agent_) : list func := flat_map (fun n => match getattr a n with Some (Mon f) => [f] | _ => [] end) (dir a).
(** A Driver or Monitor object: its number in the order of creation, and [self.func]. *)
Record worker := mk_worker { w_no : nat; w_func : func }.
Definition workers (l : list func) : list worker := map (fun x => mk_worker (fst x) (snd x)) (combine (seq 0 (List.length l)) l).
(** agent.py:35-51 [__create_all_drivers, __create_all_monitors]: every object created, and the dictionary. *)
Definition by_name (l : list worker) : dict worker := fold_left (fun d w => dset d (f_name (w_func w)) w) l [].
Definition drivers (a : agent_) : dict worker := by_name (workers (all_driver_method a)).
Definition monitor_tasks (a : agent_) : list worker := workers (all_monitor_method a).
Definition monitors (a : agent_) : dict worker := by_name (monitor_tasks a).

(** agent.py:129-132: calling the wrapper of [f] on the agent; the function that runs is [self.func] of the driver found (_base_agent.py:160).  An undecorated
    function runs itself.  (Calling a monitor method reads its queue; no function runs.) *)
Definition run_value (a : agent_) (v : value) : res func :=
  match v with
  | Drv f => match dget (drivers a) (f_name f) with Some w => Ok (w_func w) | None => Exn KeyError end
  | Fun f => Ok f
  | Mon _ | Obj => Exn TypeError
  end.
(** [agent.n(...)] *)
Definition call (a : agent_) (n : string) : res func := match getattr a n with Some v => run_value a v | None => Exn AttributeError end.
(** [super().n(...)] in a method of the [k]-th class of the resolution order *)
Definition super_call (a : agent_) (k : nat) (n : string) : res func :=
  match lookup (skipn (S k) (a_mro a)) n with Some v => run_value a v | None => Exn AttributeError end.
(** The functions that run, in the order in which they begin, when [f] runs: [body] says which calls a function makes (to other methods of the agent or to
    super()); cut off at depth [fuel]. *)
Inductive stmt := CallSelf (n : string) | CallSuper (k : nat) (n : string).
Fixpoint trace (body : func -> list stmt) (a : agent_) (fuel : nat) (f : func) : list func :=
  match fuel with
  | O => []
  | S fuel => f :: flat_map (fun c => match match c with CallSelf n => call a n | CallSuper k n => super_call a k n end with Ok g => trace body a fuel g | Exn _ => [] end) (body f)
  end.

(** * Paths *)
(** The attributes of an env: which agent (by number) they hold, or something else; [agents]: the agents. *)
Record env_ := mk_env_ { v_attrs : dict (option nat); v_agents : nat -> agent_ }.
(** env.py:79-89 [all_agent_names], with the agents *)
Definition agent_names (e : env_) : list (string * nat) :=
  flat_map (fun n => match dget (v_attrs e) n with Some (Some i) => [(n, i)] | _ => [] end) (sorted_names (dkeys (v_attrs e))).
(** Something known about the drivers ([false]) and monitors ([true]) of each agent, by method: their [path]; their entry in model_infos for a model. *)
Definition store (A : Type) := nat -> bool -> string -> option A.
Definition put {A} (st : store A) i b k (x : A) : store A := fun i' b' k' => if Nat.eqb i i' && Bool.eqb b b' && String.eqb k k' then Some x else st i' b' k'.
(** env.py:91-108 with [x n m] := n.m (driver.name is the __name__ of the function, i.e. the key); env.py:214-226 [__inject_all] with [x n m] the entry made for
    agent name [n] and method [m]. *)
Definition each_method {A} (x : string -> string -> A) (e : env_) (st : store A) : store A :=
  fold_left (fun st ni => let a := v_agents e (snd ni) in
      let st1 := fold_left (fun st f => put st (snd ni) false (f_name f) (x (fst ni) (f_name f))) (all_driver_method a) st in
      fold_left (fun st f => put st (snd ni) true (f_name f) (x (fst ni) (f_name f))) (all_monitor_method a) st1) (agent_names e) st.
Definition path_of (n m : string) : string := (n ++ "." ++ m)%string.
Definition config_agent_name (e : env_) (st : store string) : store string := each_method path_of e st.
(** env.py:18-30 [__init_subclass__]: what happens when an env of nested classes is created: the assignments of its constructors, and a configuration after the
    constructor of each class. *)
Inductive event := Assign (n : string) (v : option nat) | Config.
Inductive init_seq : nat -> list event -> Prop :=
| is_base : init_seq 0 []
| is_class k pre l post : (forall ev, In ev pre -> ev <> Config) -> (forall ev, In ev post -> ev <> Config) -> init_seq k l -> init_seq (S k) (pre ++ l ++ post ++ [Config]).
Definition do_event (agents : nat -> agent_) (x : dict (option nat) * store string) (ev : event) : dict (option nat) * store string :=
  match ev with
  | Assign n v => (dset (fst x) n v, snd x)
  | Config => (fst x, config_agent_name (mk_env_ (fst x) agents) (snd x))
  end.
Definition construct (agents : nat -> agent_) (l : list event) : dict (option nat) * store string := fold_left (do_event agents) l ([], fun _ _ _ => None).
