(** Model of the block index of a sub-queue:
    /repo/library/Java/Util/Concurrent/ConcurrentLinkedQueue/concurrentqueue.hpp,
    BlockIndexEntry and BlockIndexHeader (2818-2836), insert_block_index_entry
    (2838-2870), rewind_block_index_tail (2872-2876),
    get_block_index_entry_for_index and get_block_index_index_for_index
    (2878-2902), new_block_index (2904-2945), and their callers in
    ImplicitProducer (2367-2374, 2447-2484, 2509-2514, 2529-2534).

    [SubQueueModel] takes the index for a map from block numbers to blocks;
    here it is what the code makes of it: a ring of pointers to entries, which
    one thread writes while the others read it, and which is replaced by one
    of twice the size when the oldest entry is still in use.

    One step is one access to shared memory.  The reads of [blockIndex] and of
    [tail] may return any value that is not older than the publication of the
    block that is looked for; the read of an entry's [value] by the writer may
    miss that a reader has cleared it.  Apart from that memory is sequentially
    consistent.

    Simplifications: the pool of blocks hands out any block or none; a reader
    is some thread that holds an element of a block which is in the index, and
    only the last one to hold such an element clears the entry, which is how
    dequeue behaves ([BlockIndexProps.C113_protocol] proves that of
    [SubQueueModel]); headers are never freed before the sub-queue is. *)

From Coq Require Import ZArith List Bool.
From Verif Require Import Base SubQueueModel.
Import ListNotations.
Open Scope Z_scope.

Section Index.
(** BLOCK_SIZE (309) and IMPLICIT_INITIAL_INDEX_SIZE (324) *)
Variables (B cap0 : Z).

(** 2819: [INVALID_BLOCK_BASE] *)
Definition INVALID : Z := 1.

(** The [value] of an entry; [Garbage]: never written (2928 initialises
    only the key). *)
Inductive slotv : Type := Garbage | Null | Ptr (b : nat).
(** 2821-2825 *)
Record ent : Type := mkEnt { key : Z; val : slotv }.
(** 2827-2834: [tails] holds all values [tail] ever had, oldest first.
    [lo] and [cnt] are history variables: the number of the block that the
    first slot was made for, and the number of blocks that had been given an
    entry when the header was last the current one. *)
Record hdr : Type := mkHdr { cap : Z; tails : list Z; index : list nat; lo : Z; cnt : Z }.
Definition tailv (h : hdr) : Z := last (tails h) 0.

(** What the thread that enqueues is about to do; [e]: [idxEntry]. *)
Inductive ppc : Type :=
| PIdle
| P1                       (** look at the slot after the tail (2844-2847) *)
| PGrow                    (** new_block_index (2859) *)
| P1b                      (** look at the slot again (2862-2865) *)
| P2 (e : nat) (nt : Z)    (** store the key (2849, 2866) *)
| P3 (e : nat) (nt : Z)    (** store the tail (2850, 2867) *)
| P4 (e : nat)             (** requisition_block (2453) *)
| P5 (e : nat)             (** no block, or the element could not be constructed: rewind (2455, 2471) *)
| P5b (e : nat)            (** ... and clear the entry (2456, 2472) *)
| P6 (e b : nat)           (** construct the element, then store the block (2464-2479) *)
| PBad (u : ub).

(** What a reader that holds the element [i] is about to do. *)
Inductive cpc : Type :=
| CIdle
| L1 (i : Z)                        (** load blockIndex (2891) *)
| L2 (i : Z) (h : nat)              (** load its tail (2892) *)
| L3 (i : Z) (h : nat) (t : Z)      (** load the key at the tail, compute the slot (2893-2901) *)
| L4 (i : Z) (e : nat)              (** load the entry's block (2513) *)
| L5 (i : Z) (e : nat)              (** use it; then, if it is empty now, clear the entry (2532, 2550) *)
| CBad (u : ub).

Inductive event : Type :=
| Put (b : nat)              (** the next block is [b] *)
| Refused                    (** no entry or no block for it *)
| Look (i : Z) (v : slotv)   (** the block of element [i] was looked up *)
| Clear (n : Z).             (** the entry of block number [n] was cleared *)

(** [nb]: blocks put so far, so that the next begins at the index [B * nb];
    [nh], [ne]: headers and entries allocated.  History variables: [names]
    the entry given to each block number, [pubs] the header and the tail when
    it was put, [gone] whether it was cleared, [users] the readers that hold
    one of its elements. *)
Record ist : Type := mkIst {
  ents : nat -> ent; ne : nat;
  hdrs : nat -> hdr; nh : nat;
  nextcap : Z; nb : Z;
  prod : ppc; cons : nat -> cpc;
  names : Z -> nat; pubs : Z -> nat * nat; gone : Z -> bool; users : Z -> list nat;
  ihist : list event }.

Definition at_p (s : ist) (p : ppc) : ist :=
  mkIst (ents s) (ne s) (hdrs s) (nh s) (nextcap s) (nb s) p (cons s) (names s) (pubs s) (gone s) (users s) (ihist s).
Definition at_c (s : ist) (c : nat) (p : cpc) : ist :=
  mkIst (ents s) (ne s) (hdrs s) (nh s) (nextcap s) (nb s) (prod s) (fupd (cons s) c p) (names s) (pubs s) (gone s) (users s) (ihist s).
Definition log (s : ist) (e : event) : ist :=
  mkIst (ents s) (ne s) (hdrs s) (nh s) (nextcap s) (nb s) (prod s) (cons s) (names s) (pubs s) (gone s) (users s) (e :: ihist s).
Definition set_ent (s : ist) (e : nat) (x : ent) : ist :=
  mkIst (fupd (ents s) e x) (ne s) (hdrs s) (nh s) (nextcap s) (nb s) (prod s) (cons s) (names s) (pubs s) (gone s) (users s) (ihist s).
Definition set_hdr (s : ist) (h : nat) (x : hdr) : ist :=
  mkIst (ents s) (ne s) (fupd (hdrs s) h x) (nh s) (nextcap s) (nb s) (prod s) (cons s) (names s) (pubs s) (gone s) (users s) (ihist s).
Definition set_users (s : ist) (n : Z) (l : list nat) : ist :=
  mkIst (ents s) (ne s) (hdrs s) (nh s) (nextcap s) (nb s) (prod s) (cons s) (names s) (pubs s) (gone s) (zfupd (users s) n l) (ihist s).

(** The current header is the latest one. *)
Definition curh (s : ist) : nat := pred (nh s).
Definition cur (s : ist) : hdr := hdrs s (curh s).

(** 2844: [(tail + 1) & (capacity - 1)]; 2875 with [- 1] *)
Definition turn (h : hdr) (d : Z) : Z := Z.land (uwrap 64 (tailv h + d)) (uwrap 64 (cap h - 1)).
Definition slot_at (h : hdr) (p : Z) : option nat := nth_error (index h) (Z.to_nat p).

(** 2907-2912: the number of bytes asked of malloc, which gives no more than
    PTRDIFF_MAX (sizes of a 64-bit ABI: header 40, entry 16, pointer 8) *)
Definition bytes (entryCount next : Z) : Z := uwrap 64 (40 + (8 - 1) + 16 * entryCount + (8 - 1) + 8 * next).
Definition PTRDIFF_MAX : Z := 2 ^ 63 - 1.

(** 2919-2927: the slots of the old header, from the one after its tail up
    to its tail; [None]: out of bounds, or the loop does not end after as many
    slots as there are *)
Fixpoint copied (fuel : nat) (h : hdr) (pos : Z) : option (list nat) :=
  match fuel with
  | O => None
  | S fuel =>
    let pos := Z.land (uwrap 64 (pos + 1)) (uwrap 64 (cap h - 1)) in
    match slot_at h pos with
    | None => None
    | Some e => if pos =? tailv h then Some [e] else option_map (List.cons e) (copied fuel h pos)
    end
  end.

(** 2928-2932: fresh entries *)
Definition fresh_ents (f : nat -> ent) (ne : nat) (k : nat) : nat -> ent :=
  fun x => if (Nat.leb ne x && Nat.ltb x (ne + k))%bool then mkEnt INVALID Garbage else f x.

(** 2904-2945 once malloc has succeeded, with [p] as the next thing to do;
    the arrays are written before the header is published (2939). *)
Definition new_block_index (s : ist) (p : ppc) : ist :=
  let prevcap := if Nat.eqb (nh s) 0 then 0 else cap (cur s) in
  let count := if Nat.eqb (nh s) 0 then nextcap s else prevcap in
  match (if Nat.eqb (nh s) 0 then Some [] else copied (Z.to_nat prevcap) (cur s) (tailv (cur s))) with
  | None => at_p s (PBad OutOfBounds)
  | Some old =>
    if nextcap s <? prevcap + count then at_p s (PBad OutOfBounds)
    else if negb (Z.of_nat (length old) =? prevcap) then at_p s (PBad Precondition)  (* 2926 *)
    else
      let h := mkHdr (nextcap s) [Z.land (uwrap 64 (prevcap - 1)) (uwrap 64 (nextcap s - 1))]
                     (old ++ seq (ne s) (Z.to_nat count)) (nb s - prevcap) (nb s) in
      mkIst (fresh_ents (ents s) (ne s) (Z.to_nat count)) (ne s + Z.to_nat count) (fupd (hdrs s) (nh s) h) (S (nh s))
            (uwrap 64 (2 * nextcap s)) (nb s) p (cons s) (names s) (pubs s) (gone s) (users s) (ihist s)
  end.
Definition fits (s : ist) : bool :=
  let prevcap := if Nat.eqb (nh s) 0 then 0 else cap (cur s) in
  bytes (if Nat.eqb (nh s) 0 then nextcap s else prevcap) (nextcap s) <=? PTRDIFF_MAX.

(** The constructor, 2367-2374; [ok]: malloc succeeded *)
Definition nothing : ist :=
  mkIst (fun _ => mkEnt INVALID Garbage) 0 (fun _ => mkHdr 0 [] [] 0 0) 0 cap0 0 PIdle (fun _ => CIdle)
        (fun _ => 0%nat) (fun _ => (0, 0)%nat) (fun _ => false) (fun _ => []) [].
Definition init (ok : bool) : ist := if ok && fits nothing then new_block_index nothing PIdle else nothing.

(** 2886-2901: the slot of the block of element [i], when [t] is the tail and
    [tb] the key found there.  The quotient is taken of unsigned numbers:
    BLOCK_SIZE is a size_t, so the signed operand is converted back. *)
Definition slot_for (h : hdr) (i t tb : Z) : Z :=
  let base := Z.ldiff (uwrap 64 i) (B - 1) in
  let offset := uwrap 64 (base - tb) / B in
  Z.land (uwrap 64 (t + offset)) (uwrap 64 (cap h - 1)).

(** What the environment chooses. *)
Inductive choice : Type :=
| CPut | PGo | PStale | PFail | PBlock (b : nat)
| CStart (c : nat) (i : Z) | CHdr (c : nat) (h : nat) | CTail (c : nat) (j : nat) | CGo (c : nat)
| CDone (c : nat) | CClear (c : nat).

(** [CStart]: the element is in a block that was put and is not cleared. *)
Definition there (s : ist) (n : Z) : bool := (0 <=? n) && (n <? nb s) && negb (gone s n).

Definition refuse (s : ist) : ist := log (at_p s PIdle) Refused.

(** One step; [None]: that choice does not apply. *)
Definition istep (s : ist) (x : choice) : option ist :=
  match x with
  | CPut => match prod s with
            | PIdle => Some (if Nat.eqb (nh s) 0 then refuse s else at_p s P1)
            | _ => None
            end
  | PGo =>
    match prod s with
    | P1 =>
      let nt := turn (cur s) 1 in
      Some (match slot_at (cur s) nt with
            | None => at_p s (PBad OutOfBounds)
            | Some e => if key (ents s e) =? INVALID then at_p s (P2 e nt)
                        else match val (ents s e) with
                             | Garbage => at_p s (PBad Uninitialised)
                             | Null => at_p s (P2 e nt)
                             | Ptr _ => at_p s PGrow
                             end
            end)
    | PGrow => Some (if fits s then new_block_index s P1b else refuse s)
    | P1b =>
      let nt := turn (cur s) 1 in
      Some (match slot_at (cur s) nt with
            | None => at_p s (PBad OutOfBounds)
            | Some e => if key (ents s e) =? INVALID then at_p s (P2 e nt) else at_p s (PBad Precondition)
            end)
    | P2 e nt =>
      let h := cur s in
      let s := set_hdr (set_ent s e (mkEnt (uwrap 64 (B * nb s)) (val (ents s e)))) (curh s)
                       (mkHdr (cap h) (tails h) (index h) (lo h) (nb s + 1)) in
      Some (mkIst (ents s) (ne s) (hdrs s) (nh s) (nextcap s) (nb s) (P3 e nt) (cons s)
                  (zfupd (names s) (nb s) e) (pubs s) (gone s) (users s) (ihist s))
    | P3 e nt =>
      let h := cur s in
      Some (at_p (set_hdr s (curh s) (mkHdr (cap h) (tails h ++ [nt]) (index h) (lo h) (cnt h))) (P4 e))
    | P5 e =>
      let h := cur s in
      Some (at_p (set_hdr s (curh s) (mkHdr (cap h) (tails h ++ [turn h (-1)]) (index h) (lo h) (cnt h))) (P5b e))
    | P5b e => Some (refuse (set_ent s e (mkEnt (key (ents s e)) Null)))
    | P6 e b =>
      let s' := set_ent s e (mkEnt (key (ents s e)) (Ptr b)) in
      Some (mkIst (ents s') (ne s) (hdrs s) (nh s) (nextcap s) (nb s + 1) PIdle (cons s) (names s)
                  (zfupd (pubs s) (nb s) (curh s, pred (length (tails (cur s))))) (gone s) (users s) (Put b :: ihist s))
    | _ => None
    end
  | PStale =>
    (* the writer stored a block in this entry and does not see that it was cleared *)
    match prod s with
    | P1 => match slot_at (cur s) (turn (cur s) 1) with
            | Some e => if negb (key (ents s e) =? INVALID) && (cnt (cur s) =? nb s) then Some (at_p s PGrow) else None
            | None => None
            end
    | _ => None
    end
  | PFail => match prod s with
             | PGrow => Some (refuse s)
             | P4 e => Some (at_p s (P5 e))
             | P6 e _ => Some (at_p s (P5 e))
             | _ => None
             end
  | PBlock b => match prod s with P4 e => Some (at_p s (P6 e b)) | _ => None end
  | CStart c i =>
    match cons s c with
    | CIdle => if there s (i / B) then Some (set_users (at_c s c (L1 i)) (i / B) (c :: users s (i / B))) else None
    | _ => None
    end
  | CHdr c h =>
    match cons s c with
    | L1 i => if (Nat.leb (fst (pubs s (i / B))) h && Nat.ltb h (nh s))%bool then Some (at_c s c (L2 i h)) else None
    | _ => None
    end
  | CTail c j =>
    match cons s c with
    | L2 i h =>
      match nth_error (tails (hdrs s h)) j with
      | Some t => if (negb (Nat.eqb h (fst (pubs s (i / B)))) || Nat.leb (snd (pubs s (i / B))) j)%bool
                  then Some (at_c s c (L3 i h t)) else None
      | None => None
      end
    | _ => None
    end
  | CGo c =>
    match cons s c with
    | L3 i h t =>
      Some (match slot_at (hdrs s h) t with
            | None => at_c s c (CBad OutOfBounds)
            | Some e0 =>
              if key (ents s e0) =? INVALID then at_c s c (CBad Precondition)
              else match slot_at (hdrs s h) (slot_for (hdrs s h) i t (key (ents s e0))) with
                   | None => at_c s c (CBad OutOfBounds)
                   | Some e => at_c s c (L4 i e)
                   end
            end)
    | L4 i e =>
      Some (match val (ents s e) with
            | Garbage => at_c s c (CBad Uninitialised)
            | Null => at_c s c (CBad NullDeref)
            | Ptr b => log (at_c s c (L5 i e)) (Look i (Ptr b))
            end)
    | _ => None
    end
  | CDone c =>
    match cons s c with
    | L5 i e => Some (set_users (at_c s c CIdle) (i / B) (remove Nat.eq_dec c (users s (i / B))))
    | _ => None
    end
  | CClear c =>
    match cons s c with
    | L5 i e =>
      match users s (i / B) with
      | [_] =>
        let s := set_ent (set_users (at_c s c CIdle) (i / B) []) e (mkEnt (key (ents s e)) Null) in
        Some (mkIst (ents s) (ne s) (hdrs s) (nh s) (nextcap s) (nb s) (prod s) (cons s) (names s) (pubs s)
                    (zfupd (gone s) (i / B) true) (users s) (Clear (i / B) :: ihist s))
      | _ => None
      end
    | _ => None
    end
  end.

Fixpoint irun (s : ist) (l : list choice) : option ist :=
  match l with
  | [] => Some s
  | x :: l => match istep s x with Some s' => irun s' l | None => None end
  end.

End Index.
