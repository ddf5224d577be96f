(** Specification for C139 and C140: what the attributes and the neighbours of a node should be after a history of calls. *)
From Verif Require Import Base NodeModel.

(** a str that C strings can hold: no NUL, no surrogate *)
Definition c_safe (s : ustr) : Prop := forall c, In c s -> c <> 0 /\ ~ (55296 <= c <= 57343).
(** an object the C++ classes can hold: an int within 64 bits, a str without NUL and surrogates, anything that is not an int or a str *)
Definition holdable (v : pv) : Prop :=
  match v with PInt z | PIntSub _ z => - 2 ^ 63 <= z < 2 ^ 63 | PStr s | PStrSub _ s => c_safe s | _ => True end.
(** the int, float or str that an instance of a subclass equals (1 for True); other objects as they are *)
Definition plain_value (v : pv) : pv := match v with PIntSub _ z => PInt z | PFloatSub _ f => PFloat f | PStrSub _ s => PStr s | _ => v end.
(** None, an int, a float or a str *)
Definition edge_value (v : pv) : bool := match v with PObj _ => false | _ => true end.

(** the last data and the last name assigned *)
Definition last_data (d : pv) (ops : list nop) : pv := fold_left (fun d o => match o with NSetData v => v | NSetName _ => d end) ops d.
Definition last_name (n : ustr) (ops : list nop) : ustr :=
  fold_left (fun n o => match o with NSetName (PStr s) | NSetName (PStrSub _ s) => s | _ => n end) ops n.
(** assignments of objects the C++ classes can hold; names are strs *)
Definition good_nop (o : nop) : Prop := match o with NSetData v => holdable v | NSetName (PStr s) | NSetName (PStrSub _ s) => c_safe s | NSetName _ => False end.

(** the data last given to the neighbour [s], None if it is not adjacent; the calls latest first *)
Fixpoint latest (rops : list aop) (s : ustr) : option pv :=
  match rops with
  | [] => None
  | AAdd x d :: r => if list_eq_dec Z.eq_dec s x then Some d else latest r s
  | ARem x :: r => if list_eq_dec Z.eq_dec s x then None else latest r s
  end.
(** the same for a history in order *)
Definition current (ops : list aop) (s : ustr) : option pv := latest (rev ops) s.
(** the last call about [s] added it while it was adjacent *)
Fixpoint latest_readded (rops : list aop) (s : ustr) : bool :=
  match rops with
  | [] => false
  | AAdd x d :: r => if list_eq_dec Z.eq_dec s x then match latest r s with Some _ => true | None => false end else latest_readded r s
  | ARem x :: r => if list_eq_dec Z.eq_dec s x then false else latest_readded r s
  end.
Definition readded (ops : list aop) (s : ustr) : bool := latest_readded (rev ops) s.
Definition aop_name (o : aop) : ustr := match o with AAdd x _ => x | ARem x => x end.
(** removing a name that is not adjacent raises ValueError; nothing else raises *)
Definition outcomes (ops : list aop) (outs : list (option exn)) : Prop :=
  length outs = length ops /\
  forall k o, nth_error ops k = Some o ->
    nth_error outs k = Some (match o with
      | AAdd _ _ => None
      | ARem x => match current (firstn k ops) x with Some _ => None | None => Some ValueError end
      end).
