(** C25: handler registry. *)
From Verif Require Import PyStr Json Base Heap Registry RegistryProofs Samples.
Open Scope nat_scope.

(** Lookup by class after any history: the newest call about the class itself decides; if
    it leaves no handler, the result is an active base=True handler of some superclass, and
    there is a result exactly when such a superclass exists. *)
Theorem C25_lookup_by_class :
  forall cls sub ops c,
  match reg_get_cls sub (rrun cls ops) c with
  | Some h => registered ops c = Some h \/
              (registered ops c = None /\ exists b, sub c b = true /\ registered_base ops b = Some h)
  | None => registered ops c = None /\ forall b, sub c b = true -> registered_base ops b = None
  end.
Proof. exact get_cls_spec. Qed.
Print Assumptions C25_lookup_by_class.

(** A direct registration wins over a base one. *)
Theorem C25_direct_wins :
  forall cls sub ops c h, registered ops c = Some h -> reg_get_cls sub (rrun cls ops) c = Some h.
Proof. exact get_cls_direct. Qed.
Print Assumptions C25_direct_wins.
Example C25_direct_case : registered [OReg 1 7 true; OReg 0 5 false] 0 = Some 5.
Proof. reflexivity. Qed.

(** The handler of the only active base class is found for a subclass. *)
Theorem C25_base_applies :
  forall cls sub ops c b h,
  registered ops c = None -> sub c b = true -> registered_base ops b = Some h ->
  (forall b', sub c b' = true -> registered_base ops b' <> None -> b' = b) ->
  reg_get_cls sub (rrun cls ops) c = Some h.
Proof. exact get_cls_unique_base. Qed.
Print Assumptions C25_base_applies.
Example C25_base_case :
  let ops := [OReg 1 7 true] in let sub := fun a b => Nat.eqb b 1 in
  registered ops 0 = None /\ sub 0 1 = true /\ registered_base ops 1 = Some 7 /\
  (forall b', sub 0 b' = true -> registered_base ops b' <> None -> b' = 1).
Proof. repeat split. intros b' H _. apply Nat.eqb_eq in H. auto. Qed.

(** Several base classes: the one that has been registered longest is found, if the others were
    registered when it already was and it has not been unregistered since. *)
Theorem C25_oldest_base :
  forall cls sub ops c b, registered ops c = None -> sub c b = true -> registered_base ops b <> None ->
  (forall b', sub c b' = true -> registered_base ops b' <> None -> b' <> b ->
     exists pre post, ops = pre ++ post /\ registered_base pre b <> None /\ registered_base pre b' = None /\
       forall p q, post = p ++ q -> registered_base (pre ++ p) b <> None) ->
  reg_get_cls sub (rrun cls ops) c = registered_base ops b.
Proof. exact get_cls_oldest. Qed.
Print Assumptions C25_oldest_base.
(** Class 2 is below 1, 1 below 0; the handler of 0 was registered first, replaced later, and is the
    one that 2 gets. *)
Example C25_oldest_case :
  let ops := [OReg 0 5 true; OReg 1 6 true; OReg 0 7 true] in let sub := fun a b => Nat.leb b a in
  registered ops 2 = None /\ reg_get_cls sub (rrun (fun _ => cbase "C") ops) 2 = Some 7 /\
  (exists pre post, ops = pre ++ post /\ registered_base pre 0 <> None /\ registered_base pre 1 = None /\
     forall p q, post = p ++ q -> registered_base (pre ++ p) 0 <> None).
Proof.
  split; [reflexivity|]. split; [reflexivity|]. exists [OReg 0 5 true], [OReg 1 6 true; OReg 0 7 true].
  split; [reflexivity|]. split; [discriminate|]. split; [reflexivity|].
  intros [|a [|b [|c p]]] q E; cbn in E.
  - discriminate.
  - injection E as <- E. discriminate.
  - injection E as <- <- E. discriminate.
  - discriminate.
Qed.

(** Lookup by name: the newest call about a class of that name decides. *)
Theorem C25_lookup_by_name :
  forall cls ops n, reg_get_name (rrun cls ops) n = registered_name cls ops n.
Proof. exact name_spec. Qed.
Print Assumptions C25_lookup_by_name.

(** Two classes with the same importable name interfere: unregistering one also removes
    the name of the other. *)
Theorem C25_same_name_refuted :
  exists cls ops c h, registered ops c = Some h /\
    reg_get_name (rrun cls ops) (importable_name (cls c)) = None.
Proof.
  exists (fun _ => cbase "Same"), [OReg 0 5 false; OReg 1 6 false; OUnreg 1], 0, 5.
  split; vm_compute; reflexivity.
Qed.
Print Assumptions C25_same_name_refuted.
