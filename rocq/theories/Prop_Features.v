(** Features: C103, C104. *)
From Verif Require Import Base Features FeatureFacts.

(** C103: "Disable this feature for no-std support" (lib.rs:74) is false: without
    the feature "std" the crate still names the crate std, with and without
    "alloc". *)
Theorem C103_no_std_refuted : forall f : features, std_on f = false ->
  exists u, In u uses /\ enabled f (u_guard u) = true /\ available f (u_name u) = false.
Proof. exact std_missing. Qed.
Print Assumptions C103_no_std_refuted.
Example C103_case : selectable (Features false false) /\ selectable (Features false true).
Proof. split; discriminate. Qed.

(** C104: all names are there exactly if "std" is selected. *)
Theorem C104_names_need_std : forall f : features, selectable f ->
  ((forall u, In u uses -> enabled f (u_guard u) = true -> available f (u_name u) = true) <-> std_on f = true).
Proof. exact names_there. Qed.
Print Assumptions C104_names_need_std.
Example C104_case : selectable (Features true true) /\
  In (Use LibRs 471 Always BufModule) uses /\ enabled (Features true true) Always = true.
Proof. split; [intros _; reflexivity|]. split; [|reflexivity]. unfold uses. repeat (try (left; reflexivity); right). Qed.
(** Which uses those are.  With "alloc" alone: of [std] and of [Write], unless under
    the "std" guard; with neither feature: everything not under a guard. *)
Theorem C104_missing : forall (f : features) (u : use), selectable f ->
  (enabled f (u_guard u) = true /\ available f (u_name u) = false <->
   std_on f = false /\ u_guard u <> IfStd /\ (u_guard u = IfAlloc -> alloc_on f = true) /\
   (alloc_on f = true -> u_name u = StdCrate \/ u_name u = WriteTrait)).
Proof. exact missing_uses. Qed.
Print Assumptions C104_missing.
Example C104_missing_case :
  let u := Use BufRs 27 IfAlloc StdCrate in In u uses /\
  enabled (Features false true) (u_guard u) = true /\ available (Features false true) (u_name u) = false /\
  enabled (Features false false) (u_guard u) = false.
Proof. cbv zeta. split; [|repeat split]. unfold uses. repeat (try (left; reflexivity); right). Qed.
(** All but [alloc] itself are used without a guard somewhere. *)
Theorem C104_unguarded : forall n : name, n <> AllocCrate -> exists u, In u uses /\ u_name u = n /\ u_guard u = Always.
Proof. exact missing_each. Qed.
Print Assumptions C104_unguarded.
Example C104_unguarded_case : forallb (fun u => match u_name u, u_guard u with AllocCrate, Always => false | _, _ => true end) uses = true.
Proof. reflexivity. Qed.
