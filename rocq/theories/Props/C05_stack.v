(** C05: the stack utility (sljitUtils.c), in all build variants. *)
Require Import ZArith List Bool Lia.
From Verif Require Import Stack.StackModel Stack.StackSpec Stack.StackProofs.
Open Scope Z_scope.

(** The stack always keeps its region, and start stays inside. *)
Theorem C05_fields : forall P pa lo hi s w,
  page_ok pa -> history P pa lo hi s w ->
  min_start s = lo /\ end_ s = hi /\ lo <= start s < hi.
Proof. exact history_bounds. Qed.
Print Assumptions C05_fields.

(** The whole usable area [start, end) is accessible at any time. *)
Theorem C05_usable_area_accessible : forall P pa lo hi s w x,
  page_ok pa -> history P pa lo hi s w -> start s <= x < end_ s -> acc w x = true.
Proof. exact history_access. Qed.
Print Assumptions C05_usable_area_accessible.

(** A resize either fails and changes nothing, or moves only start to the requested place; it succeeds
    for every place in the region unless the OS refuses (only possible on Windows). *)
Theorem C05_resize_atomic : forall P pa lo hi s w n o r s' w',
  page_ok pa -> history P pa lo hi s w -> 0 <= n < 2 ^ 64 ->
  stack_resize P pa w s n o = (r, s', w') ->
  (r = 0 /\ s' = s /\ w' = w \/
   r = n /\ lo <= n < hi /\ s' = mkStack (top s) (end_ s) n (min_start s)) /\
  (lo <= n < hi -> P <> Win \/ os_page o = true -> r = n /\ r <> 0).
Proof. exact history_resize. Qed.
Print Assumptions C05_resize_atomic.

(** No byte of the area that stays usable is lost, whatever the OS does with discarded memory. *)
Theorem C05_resize_keeps_content : forall P pa lo hi s w n o r s' w' x,
  page_ok pa -> history P pa lo hi s w -> 0 <= n < 2 ^ 64 ->
  stack_resize P pa w s n o = (r, s', w') ->
  start s <= x < end_ s -> start s' <= x < end_ s' ->
  content w' x = content w x.
Proof. exact history_content. Qed.
Print Assumptions C05_resize_keeps_content.

(** Memory outside of the region of the stack is never affected. *)
Theorem C05_resize_local : forall P pa lo hi s w n o r s' w' x,
  page_ok pa -> history P pa lo hi s w -> 0 <= n < 2 ^ 64 ->
  stack_resize P pa w s n o = (r, s', w') ->
  ~ (lo <= x < hi) -> content w' x = content w x /\ acc w' x = acc w x.
Proof. exact history_outside. Qed.
Print Assumptions C05_resize_local.

(** sljit_free_stack releases exactly the region of the stack. *)
Theorem C05_free_exact : forall P pa lo hi s w,
  page_ok pa -> history P pa lo hi s w ->
  exists w', free_stack P w s = Some w' /\ content w' = content w /\
  (forall x, lo <= x < hi -> acc w' x = false) /\
  (forall x, ~ (lo <= x < hi) -> acc w' x = acc w x).
Proof. exact free_ok. Qed.
Print Assumptions C05_free_exact.

(** sljit_allocate_stack never fails an internal step; when it returns a stack, the stack has
    the requested start size and at least the requested maximum size; when it returns NULL,
    the memory of the process (outside of a region tried and released) is unchanged. *)
Theorem C05_allocate : forall P pa w0 ss ms o,
  page_ok pa -> 0 <= ss < 2 ^ 64 -> 0 <= ms < 2 ^ 64 ->
  region_ok P pa (region_size P pa ms) (os_region o) ->
  exists res w, allocate_stack P pa w0 ss ms o = Some (res, w) /\
  match res with
  | None => forall x, (match os_region o with Some p => ~ (p <= x < p + region_size P pa ms) | None => True end) ->
                      content w x = content w0 x /\ acc w x = acc w0 x
  | Some s => 1 <= ss <= ms /\ start s = end_ s - ss /\ ms <= end_ s - min_start s /\ top s = end_ s /\
              (forall x, ~ (min_start s <= x < end_ s) -> content w x = content w0 x /\ acc w x = acc w0 x)
  end.
Proof. exact alloc_summary. Qed.
Print Assumptions C05_allocate.

(** A concrete history: 4 KiB pages, shrink across a page boundary with an unaligned new start. *)
Definition ex_os := mkOs true (Some 65536) true (fun x => x mod 7).
Definition ex_w0 := mkWorld (fun _ => 0) (fun _ => false) None.
Definition ex_a := allocate_stack Posix 4095 ex_w0 10000 20000 ex_os.
Definition ex_s := mkStack 86016 86016 76016 65536.
Example ex_alloc : match ex_a with Some (Some s, w) => s = ex_s /\ acc w 80000 = true | _ => False end.
Proof. vm_compute. auto. Qed.
Definition ex_w1 := match ex_a with Some (_, w) => w | None => ex_w0 end.
Definition ex_w2 := match write ex_w1 83333 42 with Some w => w | None => ex_w0 end.
Definition ex_w3 := snd (stack_resize Posix 4095 ex_w2 ex_s 83333 ex_os).
Example ex_history : history Posix 4095 65536 86016 (mkStack 86016 86016 83333 65536) ex_w3.
Proof.
  apply (h_resize Posix 4095 65536 86016 ex_s ex_w2 83333 ex_os 83333); [|lia|reflexivity].
  apply (h_write Posix 4095 65536 86016 ex_s ex_w1 83333 42); [|cbn; lia|reflexivity].
  apply (h_alloc Posix 4095 ex_w0 10000 20000 ex_os ex_s ex_w1 65536); try lia; try reflexivity.
  vm_compute. repeat split; auto; discriminate.
Qed.
(** The byte written survives, a byte on a page which is completely unused now does not. *)
Example ex_content : content ex_w3 83333 = 42 /\ page_ok 4095 /\ content ex_w2 80000 = 80000 mod 7.
Proof. split; [reflexivity|split; [exists 12; lia|reflexivity]]. Qed.
