(** Reference counted shared memory mappings (channel_shm.cpp, the build for systems
    other than Windows).

    All functions run under the spin lock [shm_mapped_records_lock], so an execution of
    any number of threads is a sequence of calls.  The operating system is a set of
    attached mappings; what it answers to a call that creates one is an input.  Not modelled: the
    names of POSIX objects in the file system (shm_unlink), page rounding of the size, the
    truncation of the number to key_t, and the contents of the region. *)
From Verif Require Import Base NodeConn.
Local Open Scope N_scope.

(** [shm_normalize_path] (96-118).  A path that begins with '/' or '\' names a POSIX
    object, anything else is read as a number.  [num] is [util::string::str2int], which
    is not part of the repository; the decimal text of the number, the key of the table,
    is represented by the number. *)
Inductive key := KPath (p : bytes) | KNum (z : Z).
Definition key_eqb (a b : key) : bool :=
  match a, b with KPath p, KPath q => bytes_eqb p q | KNum x, KNum y => (x =? y)%Z | _, _ => false end.
Definition normalize (num : bytes -> Z) (p : bytes) : key :=
  match p with
  | [] => KPath []
  | c :: r => if (c =? 47) || (c =? 92) then KPath (47 :: r) else KNum (num p)
  end.
(** [shm_verify_path] (120-145); NAME_MAX is 255, a 64 bit number has at most 20 digits. *)
Definition verify (k : key) : bool :=
  match k with
  | KNum _ => true
  | KPath p => negb (bytes_eqb p []) && (N.of_nat (length p) <=? 255) && forallb (fun c => negb (c =? 0) && negb (c =? 47)) (tl p)
  end.
(** Whether a key is opened with shm_open/mmap: when the number is 0 (308), which
    includes every path. *)
Definition posix (k : key) : bool := match k with KPath _ => true | KNum z => (z =? 0)%Z end.

(** [shm_mapped_record_type] (72-91); [m_buf] is the attached mapping, [None] the value
    [(void* )-1]. *)
Record mrec := { m_buf : option N; m_size : N; m_posix : bool; m_count : N }.
Record shm := {
  recs : list (key * mrec);  (** [shm_mapped_by_key_records] *)
  live : list N;             (** mappings the process has attached *)
  next : N;                  (** number of the next mapping *)
  fds : N                    (** open file descriptors *)
}.
Definition shm0 : shm := {| recs := []; live := []; next := 1; fds := 0 |}.
Definition find_rec (k : key) (s : shm) : option mrec := option_map snd (find (fun p => key_eqb k (fst p)) (recs s)).
Definition put_rec (k : key) (r : mrec) (l : list (key * mrec)) : list (key * mrec) :=
  (k, r) :: filter (fun p => negb (key_eqb k (fst p))) l.
Definition del_rec (k : key) (l : list (key * mrec)) : list (key * mrec) := filter (fun p => negb (key_eqb k (fst p))) l.

(** What the system calls of one [shm_open_buffer] answer. *)
Inductive os :=
| OsOk (size : N)  (** everything works *)
| OsGetFail        (** shm_open or shmget fails *)
| OsStatFail       (** fstat, ftruncate or shmctl fails *)
| OsMapFail (size : N). (** mmap or shmat fails *)
Definition E_SHM_GET_FAILED : Z := (-301)%Z.
Definition E_SHM_NOT_FOUND : Z := (-302)%Z.
Definition E_SHM_CLOSE_FAILED : Z := (-303)%Z.
Definition E_SHM_PATH_INVALID : Z := (-304)%Z.
Definition E_SHM_MAP_FAILED : Z := (-305)%Z.

(** [shm_close_buffer] (147-190).  [assert] is off, as in a release build.  Detaching
    succeeds when the address is attached. *)
Definition close_buffer (k : key) (s : shm) : shm * Z :=
  if negb (verify k) then (s, E_SHM_PATH_INVALID)
  else match find_rec k s with
  | None => (s, E_SHM_NOT_FOUND)
  | Some r =>
      let n := wrap64 (m_count r + 2 ^ 64 - 1) in
      if 0 <? n then
        ({| recs := put_rec k {| m_buf := m_buf r; m_size := m_size r; m_posix := m_posix r; m_count := n |} (recs s);
            live := live s; next := next s; fds := fds s |}, 0%Z)
      else
        match m_buf r with
        | Some b => ({| recs := del_rec k (recs s); live := filter (fun x => negb (x =? b)) (live s); next := next s; fds := fds s |}, 0%Z)
        | None => ({| recs := del_rec k (recs s); live := live s; next := next s; fds := fds s |}, E_SHM_CLOSE_FAILED)
        end
  end.
(** [shm_open_buffer] (192-380), the branch for systems other than Windows.  The new
    record starts with count 0 (value initialisation, 201); only the shmget branch sets it
    to 1 (367).  The descriptor of shm_open is never closed. *)
Definition open_buffer (k : key) (o : os) (s : shm) : shm * Z * option N :=
  if negb (verify k) then (s, E_SHM_PATH_INVALID, None)
  else match find_rec k s with
  | Some r =>
      ({| recs := put_rec k {| m_buf := m_buf r; m_size := m_size r; m_posix := m_posix r; m_count := wrap64 (m_count r + 1) |} (recs s);
          live := live s; next := next s; fds := fds s |}, 0%Z, m_buf r)
  | None =>
      let add n b c s := {| recs := put_rec k {| m_buf := b; m_size := n; m_posix := posix k; m_count := c |} (recs s);
                            live := live s; next := next s; fds := fds s |} in
      let keep s := {| recs := recs s; live := live s; next := next s; fds := fds s + 1 |} in
      let fresh fd s := {| recs := recs s; live := next s :: live s; next := next s + 1; fds := fds s + fd |} in
      match o, posix k with
      | OsGetFail, _ | OsStatFail, false => (s, E_SHM_GET_FAILED, None)
      | OsStatFail, true => (keep s, E_SHM_GET_FAILED, None)
      | OsMapFail _, true => (keep s, E_SHM_MAP_FAILED, None)
      | OsOk n, true => (add n (Some (next s)) 0 (fresh 1 s), 0%Z, Some (next s))
      | OsMapFail n, false => (add n None 1 s, 0%Z, None)
      | OsOk n, false => (add n (Some (next s)) 1 (fresh 0 s), 0%Z, Some (next s))
      end
  end.
(** [shm_attach] and [shm_init] (424-464): open, let the memory channel look at the
    region ([ok]: [mem_attach] or [mem_init] succeeds), and close again if it does not. *)
Inductive sop := SOpen (p : bytes) (o : os) (ok : bool) | SClose (p : bytes).
(** Result: the code and the address a successful open gives. *)
Definition sh_step (num : bytes -> Z) (x : sop) (s : shm) : shm * (Z * option N) :=
  match x with
  | SOpen p o ok =>
      let k := normalize num p in
      match open_buffer k o s with
      | (s, z, b) => if (z <? 0)%Z then (s, (z, None)) else if ok then (s, (z, b)) else (fst (close_buffer k s), ((-1)%Z, None))
      end
  | SClose p => let (s, z) := close_buffer (normalize num p) s in (s, (z, None))
  end.
(** A history of calls: the state it reaches and the calls with their results, newest
    first. *)
Definition sh_next (num : bytes -> Z) (a : shm * list (sop * (Z * option N))) (x : sop) :=
  let (s, z) := sh_step num x (fst a) in (s, (x, z) :: snd a).
Definition sh_run (num : bytes -> Z) (l : list sop) : shm * list (sop * (Z * option N)) :=
  fold_left (sh_next num) l (shm0, []).
