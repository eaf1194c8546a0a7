(** Pictures shared through handles and recycled by a pool. Sources:
    src/decoder/raster_handle.cc, src/decoder/raster_handle.hh, for
    RasterType = HashCachedRaster. std::unique_ptr and std::shared_ptr are
    modelled by what the standard says of them: the deleter runs when the owner
    goes, the last owner of several. Each operation runs without interruption:
    the pool and the cache are protected by mutexes (raster_handle.cc l.61,
    l.92, l.199). *)
From Verif Require Import Base.

(** raster_handle.hh l.48-62; the planes are one list. [pi_alive] is false
    after delete. *)
Record picture : Type := mkPicture { pi_width : Z; pi_height : Z; pi_contents : list Z; pi_cache : option Z; pi_alive : bool }.

(** A pointer to a picture (its index in the heap) with its deleter: whether
    the pool is set (raster_handle.hh l.68). *)
Record holder : Type := mkHolder { ho_picture : nat; ho_pool : bool }.

(** The pictures ever allocated; the unused ones; the mutable and the shared
    handles ever made, None after they were moved from or destroyed. *)
Record world : Type := mkWorld { wo_heap : list picture; wo_unused : list holder; wo_mutable : list (option holder); wo_shared : list (option holder) }.

(** The exception Unsupported; a failed assertion; use of an empty or unknown
    handle or of a deleted picture. *)
Inductive pool_error : Type := PoolUnsupported | PoolAssert | PoolUndefined.

Fixpoint update {A} (l : list A) (n : nat) (f : A -> A) : list A :=
  match l, n with
  | [], _ => []
  | x :: r, O => f x :: r
  | x :: r, S n' => x :: update r n' f
  end.

Definition set_cache (c : option Z) (p : picture) : picture := mkPicture (pi_width p) (pi_height p) (pi_contents p) c (pi_alive p).
Definition set_contents (c : list Z) (p : picture) : picture := mkPicture (pi_width p) (pi_height p) c (pi_cache p) (pi_alive p).
Definition set_dead (p : picture) : picture := mkPicture (pi_width p) (pi_height p) (pi_contents p) (pi_cache p) false.

(** The picture behind a pointer. *)
Definition deref (heap : list picture) (p : nat) : res pool_error picture :=
  match nth_error heap p with
  | Some x => if pi_alive x then Ok x else Err PoolUndefined
  | None => Err PoolUndefined
  end.

(** raster_handle.cc l.110-119 and l.90-96: the deleter. The holder in the queue
    has a new deleter, without a pool. *)
Definition run_deleter (heap : list picture) (unused : list holder) (h : holder) : list picture * list holder :=
  if ho_pool h then (update heap (ho_picture h) (set_cache None), unused ++ [mkHolder (ho_picture h) false])
  else (update heap (ho_picture h) set_dead, unused).

(** raster_handle.cc l.73-75: emptying the queue destroys its elements. *)
Fixpoint destroy_all (heap : list picture) (l : list holder) : list picture :=
  match l with
  | [] => heap
  | h :: r => destroy_all (fst (run_deleter heap [] h)) r
  end.

(** raster_handle.cc l.58-88. *)
Definition make_raster (allow_resize : bool) (width height : Z) (heap : list picture) (unused : list holder) : res pool_error (list picture * list holder * holder) :=
  let fresh := (heap ++ [mkPicture width height [] None true], mkHolder (length heap) false) in
  let! (heap', unused', h) :=
    match unused with
    | [] => Ok (fst fresh, [], snd fresh)
    | f :: r =>
        let! p := deref heap (ho_picture f) in
        if negb (pi_width p =? width) || negb (pi_height p =? height) then
          if allow_resize then
            let heap' := destroy_all heap unused in
            Ok (heap' ++ [mkPicture width height [] None true], [], mkHolder (length heap') false)
          else Err PoolUnsupported
        else Ok (heap, r, f)
    end in
  (* raster_handle.cc l.127-132 *)
  if ho_pool h then Err PoolAssert
  else Ok (heap', unused', mkHolder (ho_picture h) true).

(** The holder in a slot. *)
Definition slot (l : list (option holder)) (n : nat) : res pool_error holder :=
  match nth_error l n with Some (Some h) => Ok h | _ => Err PoolUndefined end.

(** raster_handle.cc l.197-207. *)
Definition cached_hash (raw_hash : Z -> Z -> list Z -> Z) (heap : list picture) (p : nat) : res pool_error (list picture * Z) :=
  let! x := deref heap p in
  match pi_cache x with
  | Some v => Ok (heap, v)
  | None => let v := raw_hash (pi_width x) (pi_height x) (pi_contents x) in Ok (update heap p (set_cache (Some v)), v)
  end.

(** How many shared handles own the picture. *)
Definition owners (l : list (option holder)) (p : nat) : nat :=
  length (filter (fun o => match o with Some h => Nat.eqb (ho_picture h) p | None => false end) l).

Inductive pool_op : Type :=
| Make (width height : Z)              (* raster_handle.cc l.157-165 *)
| Write (m : nat) (contents : list Z)  (* raster_handle.hh l.94, l.97: through a mutable handle *)
| HashMutable (m : nat)                (* raster_handle.hh l.93, l.96 and l.58 *)
| Freeze (m : nat)                     (* raster_handle.cc l.172-177 *)
| Copy (s : nat)                       (* the implicit copy constructor of VP8RasterHandle *)
| Hash (s : nat)                       (* raster_handle.cc l.179-183 *)
| DropMutable (m : nat)
| DropShared (s : nat).

(** One operation; the number is the result of the two hash operations, 0
    otherwise. Destroying an empty handle does nothing. *)
Definition pool_step (allow_resize : bool) (raw_hash : Z -> Z -> list Z -> Z) (w : world) (op : pool_op) : res pool_error (world * Z) :=
  let (heap, unused, mutables, shareds) := w in
  match op with
  | Make width height =>
      let! (heap', unused', h) := make_raster allow_resize width height heap unused in
      let! p := deref heap' (ho_picture h) in
      if match pi_cache p with Some _ => true | None => false end then Err PoolAssert
      else Ok (mkWorld heap' unused' (mutables ++ [Some h]) shareds, 0)
  | Write m contents =>
      let! h := slot mutables m in
      let! p := deref heap (ho_picture h) in
      Ok (mkWorld (update heap (ho_picture h) (set_contents contents)) unused mutables shareds, 0)
  | HashMutable m =>
      let! h := slot mutables m in
      let! (heap', v) := cached_hash raw_hash heap (ho_picture h) in
      Ok (mkWorld heap' unused mutables shareds, v)
  | Freeze m =>
      let! h := slot mutables m in
      let! p := deref heap (ho_picture h) in
      if match pi_cache p with Some _ => true | None => false end then Err PoolAssert
      else Ok (mkWorld heap unused (update mutables m (fun _ => None)) (shareds ++ [Some h]), 0)
  | Copy s =>
      match nth_error shareds s with
      | None => Err PoolUndefined
      | Some o => Ok (mkWorld heap unused mutables (shareds ++ [o]), 0)
      end
  | Hash s =>
      let! h := slot shareds s in
      let! (heap', v) := cached_hash raw_hash heap (ho_picture h) in
      Ok (mkWorld heap' unused mutables shareds, v)
  | DropMutable m =>
      match nth_error mutables m with
      | None => Err PoolUndefined
      | Some None => Ok (w, 0)
      | Some (Some h) =>
          let (heap', unused') := run_deleter heap unused h in
          Ok (mkWorld heap' unused' (update mutables m (fun _ => None)) shareds, 0)
      end
  | DropShared s =>
      match nth_error shareds s with
      | None => Err PoolUndefined
      | Some None => Ok (w, 0)
      | Some (Some h) =>
          let shareds' := update shareds s (fun _ => None) in
          if Nat.eqb (owners shareds' (ho_picture h)) 0 then
            let (heap', unused') := run_deleter heap unused h in
            Ok (mkWorld heap' unused' mutables shareds', 0)
          else Ok (mkWorld heap unused mutables shareds', 0)
      end
  end.

Definition pool_start : world := mkWorld [] [] [] [].
Fixpoint pool_run (allow_resize : bool) (raw_hash : Z -> Z -> list Z -> Z) (w : world) (l : list pool_op) : res pool_error world :=
  match l with
  | [] => Ok w
  | op :: r => let! (w', v) := pool_step allow_resize raw_hash w op in pool_run allow_resize raw_hash w' r
  end.
