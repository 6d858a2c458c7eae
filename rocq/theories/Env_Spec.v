(** Specification vocabulary for attaching a model to an env. *)
From Coq Require Import List String Bool Arith.
From Verif Require Import Py Env_Model.
Import ListNotations.
Open Scope string_scope.

(** The methods of an env. *)
Definition driver_of (e : env) (a m : string) : Prop :=
  exists ag, In ag (e_agents e) /\ a_name ag = a /\ In m (map fst (a_drivers ag)).
Definition monitor_of (e : env) (a m : string) : Prop :=
  exists ag, In ag (e_agents e) /\ a_name ag = a /\ In m (map fst (a_monitors ag)).
Definition method_of (e : env) (a m : string) : Prop := driver_of e a m \/ monitor_of e a m.

(** The dispatch entries of a method: which models it calls, in order, and with what. *)
Definition driver_entries (e : env) (a m : string) (is : infos) : Prop :=
  exists ag, In ag (e_agents e) /\ a_name ag = a /\ In (m, is) (a_drivers ag).
Definition monitor_entries (e : env) (a m : string) (is : infos) : Prop :=
  exists ag, In ag (e_agents e) /\ a_name ag = a /\ In (m, is) (a_monitors ag).

(** What an agent hook or agent port declares. *)
Definition names_agent (d : decl) (a : string) : Prop := a = d_name d \/ In a (d_agents d).
Definition selects (d : decl) (a m : string) : Prop := names_agent d a \/ In (a ++ "." ++ m) (d_methods d).

(** All object numbers of a model: hooks and ports are distinct objects. *)
Definition ids (md : model) : list nat :=
  map d_id (m_ahooks md ++ m_aports md) ++ map t_id (m_dhooks md ++ m_mhooks md ++ m_dports md ++ m_mports md).

(** Every `methods` entry is a method of the env whose agent is not already selected as a whole, and no entry is repeated. *)
Definition methods_exist (e : env) (d : decl) : Prop :=
  NoDup (d_methods d) /\
  forall p, In p (d_methods d) -> exists a m, method_of e a m /\ p = a ++ "." ++ m /\ ~ names_agent d a.

(** The models that attach accepts. *)
Record acceptable (e : env) (md : model) : Prop := {
  acc_dhooks : NoDup (map t_path (m_dhooks md)) /\ forall h, In h (m_dhooks md) -> exists a m, driver_of e a m /\ t_path h = a ++ "." ++ m;
  acc_dports : NoDup (map t_path (m_dports md)) /\ forall h, In h (m_dports md) -> exists a m, driver_of e a m /\ t_path h = a ++ "." ++ m;
  acc_mhooks : NoDup (map t_path (m_mhooks md)) /\ forall h, In h (m_mhooks md) -> exists a m, monitor_of e a m /\ t_path h = a ++ "." ++ m;
  acc_mports : NoDup (map t_path (m_mports md)) /\ forall h, In h (m_mports md) -> exists a m, monitor_of e a m /\ t_path h = a ++ "." ++ m;
  acc_ahooks : forall d, In d (m_ahooks md) -> methods_exist e d /\
                 (forall a, In a (d_agents d) -> In a (e_attrs e)) /\ (d_name d = "" \/ In (d_name d) (e_attrs e));
  acc_aports : forall d, In d (m_aports md) -> methods_exist e d /\ (exists a m, method_of e a m /\ selects d a m) /\
                 (forall a, In a (d_agents d) -> In a (e_attrs e)) /\ (d_own d = "" \/ In (d_own d) (e_attrs e)) }.

(** Position of the entry of a model. *)
Definition entry_of (is : infos) (k : nat) : option info := option_map snd (find (fun x => Nat.eqb (fst x) k) is).

(** The numbers of the declarations of a list that satisfy [P], in the order of the list. *)
Inductive picked (P : decl -> Prop) : list decl -> list nat -> Prop :=
| picked_nil : picked P [] []
| picked_take d l r : P d -> picked P l r -> picked P (d :: l) (d_id d :: r)
| picked_skip d l r : ~ P d -> picked P l r -> picked P (d :: l) r.

(** The entry [i] for method [a.m] is what the declarations say: agent hooks and ports that select the
    method, in order; the hook and the port with that path, the first one if there are several. *)
Definition first_with (l : list item) (p : string) (o : option nat) : Prop :=
  match o with
  | Some x => exists l1 h l2, l = l1 ++ h :: l2 /\ t_id h = x /\ t_path h = p /\ forall h', In h' l1 -> t_path h' <> p
  | None => forall h, In h l -> t_path h <> p
  end%list.
Record entry_right (md : model) (hooks ports : list item) (a m : string) (i : info) : Prop := {
  er_ahooks : picked (fun d => selects d a m) (m_ahooks md) (i_ahooks i);
  er_aports : picked (fun d => selects d a m) (m_aports md) (i_aports i);
  er_hook : first_with hooks (a ++ "." ++ m) (i_hook i);
  er_port : first_with ports (a ++ "." ++ m) (i_port i) }.

(** [is'] is [is] with the entry of model [k] added at the end, or replaced in place if it was there. *)
Definition only_changes (is is' : infos) (k : nat) (i : info) : Prop :=
  entry_of is' k = Some i /\ (forall j, j <> k -> entry_of is' j = entry_of is j) /\
  ((In k (map fst is) /\ map fst is' = map fst is) \/ (~ In k (map fst is) /\ map fst is' = map fst is ++ [k]))%list.
