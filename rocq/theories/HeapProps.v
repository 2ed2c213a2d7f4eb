(** Property C05 (and C53): merging and the identity of objects. *)
From Verif Require Import Py Options Heap HeapProofs.

(** C05: whatever the objects and their sharing, whether merging returns or raises, every list and
    dict that existed before the call is unchanged. *)
Theorem C05_merge_never_modifies_existing_objects : forall fuel h layers h' r,
  h_merge_options fuel h layers = (h', r) ->
  forall l, l < List.length h -> nth_error h' l = nth_error h l.
Proof. intros fuel h layers h' r H; exact (proj2 (proj1 (h_merge_options_frame fuel h layers h' r H))). Qed.
Print Assumptions C05_merge_never_modifies_existing_objects.

(** C05: the dict returned is a new object, and so is every list directly in it: later
    merges into it (which append to these lists) cannot reach the caller's objects. *)
Theorem C05_result_is_new : forall fuel h layers h' m,
  h_merge_options fuel h layers = (h', Ok m) ->
  List.length h <= m /\
  exists d, nth_error h' m = Some (CDict d) /\
    forall k l xs, In (k, HRef l) d -> nth_error h' l = Some (CList xs) -> List.length h <= l.
Proof.
  intros fuel h layers h' m H.
  destruct (h_merge_options_frame fuel h layers h' (Ok m) H) as [_ Hi].
  destruct (Hi m eq_refl) as (H1 & _ & (d & Hd) & H4); split; [exact H1|].
  exists d; split; [exact Hd|]. intros k l xs Hin Hl.
  destruct (Nat.lt_ge_cases l (List.length h)) as [Hlt|Hge]; [|exact Hge].
  exfalso; apply (H4 k l xs); auto. unfold entries; rewrite Hd; exact Hin.
Qed.
Print Assumptions C05_result_is_new.

(** C05 limit: nested dicts of later layers are not copied, the result shares them with the caller. *)
Theorem C05_result_shares_nested_dicts_refuted :
  exists fuel h layers h' m d l,
    h_merge_options fuel h layers = (h', Ok m) /\ nth_error h' m = Some (CDict d) /\
    In (KS (lit "advanced_config"), HRef l) d /\ l < List.length h /\ In (HRef 1) layers.
Proof.
  exists 5, [CDict []; CDict [(KS (lit "advanced_config"), HRef 2)]; CDict [(KS (lit "a"), HInt 1)]].
  exists [HRef 0; HRef 1]. do 4 eexists. split; [vm_compute; reflexivity|].
  split; [vm_compute; reflexivity|]. split; [left; reflexivity|].
  split; [vm_compute; lia|right; left; reflexivity].
Qed.
Print Assumptions C05_result_shares_nested_dicts_refuted.

(** C53: when one list object is the value of two options of the first layer (as YAML anchors
    produce), extending one option in a later layer also extends the other. *)
Theorem C53_shared_list_leaks_refuted :
  exists fuel h h' m,
    read 4 h (HRef 0) = Some (VDict [(KS (lit "a"), VList [VInt 1]); (KS (lit "b"), VList [VInt 1])]) /\
    read 4 h (HRef 2) = Some (VDict [(KS (lit "a"), VList [VInt 2])]) /\
    h_merge_options fuel h [HRef 0; HRef 2] = (h', Ok m) /\
    read 4 h' (HRef m) = Some (VDict [(KS (lit "a"), VList [VInt 1; VInt 2]); (KS (lit "b"), VList [VInt 1; VInt 2])]).
Proof.
  exists 6, [CDict [(KS (lit "a"), HRef 1); (KS (lit "b"), HRef 1)]; CList [HInt 1];
             CDict [(KS (lit "a"), HRef 3)]; CList [HInt 2]].
  vm_compute. do 2 eexists. repeat split; reflexivity.
Qed.
Print Assumptions C53_shared_list_leaks_refuted.

(** Non-vacuity: a merge with aliased arguments (the same object passed twice, sharing a list;
    the sharing inside the first layer also shows C53 through a nested dict). *)
Example ex_heap_merge :
  let h := [CDict [(KS (lit "a"), HRef 1); (KS (lit "d"), HRef 2)]; CList [HInt 1]; CDict [(KS (lit "a"), HRef 1)];
            CDict [(KS (lit "a"), HRef 4); (KS (lit "d"), HRef 2)]; CList [HInt 2; HRef 1]] in
  let (h', r) := h_merge_options 10 h [HRef 0; HRef 3; HRef 0] in
  r = Ok 5 /\ firstn 5 h' = h /\
  read 5 h' (HRef 5) = Some (VDict [(KS (lit "a"), VList [VInt 1; VInt 2; VList [VInt 1]]);
                                    (KS (lit "d"), VDict [(KS (lit "a"), VList [VInt 1; VInt 2; VList [VInt 1]])])]).
Proof. vm_compute. repeat split. Qed.
