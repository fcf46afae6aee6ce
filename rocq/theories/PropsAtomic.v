(** Properties of atomic file replacement (next-plaid/src/utils.rs). *)
From Verif Require Import Base Text Calendar Npy AtomicFile AtomicSpec AtomicProofs.
Open Scope nat_scope.

(** C35. The process may stop after any number [k] of its system calls: the file then holds its
    old content, or the complete new one. *)
Theorem C35_process_stops :
  forall valid_utf8 pid, (forall n, ascii_text n -> valid_utf8 n = true) -> (0 <= pid)%Z ->
  forall x s n os r k, (forall j, (0 <= clock x j)%Z) -> settled s n -> atomic_write_file valid_utf8 pid x s n = (os, r) ->
    read (exec_all s (firstn k os)) n = read s n
    \/ (write_ok x = true /\ r = Ok tt /\ read (exec_all s (firstn k os)) n = Some (concat (writes x))).
Proof. exact running. Qed.
Print Assumptions C35_process_stops.
(** The same when the power fails there. *)
Theorem C35_power_fails :
  forall valid_utf8 pid, (forall n, ascii_text n -> valid_utf8 n = true) -> (0 <= pid)%Z ->
  forall x s n os r k a, (forall j, (0 <= clock x j)%Z) -> settled s n -> atomic_write_file valid_utf8 pid x s n = (os, r) ->
    after_power_loss (exec_all s (firstn k os)) n a ->
    a = read s n \/ (write_ok x = true /\ r = Ok tt /\ a = Some (concat (writes x))).
Proof. exact power_loss. Qed.
Print Assumptions C35_power_fails.
(** A call that does not succeed reports an error and leaves the old content, for good. *)
Theorem C35_error_keeps_old :
  forall valid_utf8 pid, (forall n, ascii_text n -> valid_utf8 n = true) -> (0 <= pid)%Z ->
  forall x s n os r, (forall j, (0 <= clock x j)%Z) -> settled s n -> atomic_write_file valid_utf8 pid x s n = (os, r) -> r <> Ok tt ->
    r = Err /\ read (exec_all s os) n = read s n /\ forall a, after_power_loss (exec_all s os) n a -> a = read s n.
Proof. exact failed. Qed.
Print Assumptions C35_error_keeps_old.
(** After a success the new content is there; it is there for good, and the file is ready for
    the next replacement, if the fsync of the directory worked. *)
Theorem C35_success :
  forall valid_utf8 pid, (forall n, ascii_text n -> valid_utf8 n = true) -> (0 <= pid)%Z ->
  forall x s n os, (forall j, (0 <= clock x j)%Z) -> settled s n -> atomic_write_file valid_utf8 pid x s n = (os, Ok tt) ->
    read (exec_all s os) n = Some (concat (writes x)) /\
    (dirsync_ok x = true -> settled (exec_all s os) n /\ forall a, after_power_loss (exec_all s os) n a -> a = Some (concat (writes x))).
Proof. exact succeeded. Qed.
Print Assumptions C35_success.
(** No other file changes at any point. *)
Theorem C35_other_files :
  forall valid_utf8 pid x s n os r m k, fresh_next s -> atomic_write_file valid_utf8 pid x s n = (os, r) ->
    m <> n -> ~ temporary valid_utf8 pid n m ->
    read (exec_all s (firstn k os)) m = read s m /\
    (settled s m -> forall a, after_power_loss (exec_all s (firstn k os)) m a -> a = read s m).
Proof. exact others. Qed.
Print Assumptions C35_other_files.
(** An error, other than a failed rename, leaves no temporary file. *)
Theorem C35_error_leaves_no_file :
  forall valid_utf8 pid x s n os, atomic_write_file valid_utf8 pid x s n = (os, Err) -> rename_ok x = true ->
    forall m, entries (exec_all s os) m = entries s m.
Proof. exact error_clean. Qed.
Print Assumptions C35_error_leaves_no_file.

Definition ex_io (rename dirsync : bool) : io :=
  {| clock := fun k => 100%Z; open_fails := fun _ => false; writes := [[7; 8]; [9]]%Z; write_ok := true; sync_ok := true;
     rename_ok := rename; dirsync_ok := dirsync |}.
Definition ex_fs : fs :=
  {| entries := fun n => if name_eqb n (txt "ivf.npy") then Some 0 else None; content := fun _ => [1; 2]%Z; clean := fun _ => true;
     next := 1; durable := fun n => if name_eqb n (txt "ivf.npy") then Some 0 else None; unsynced := [] |}.
(** A failed rename leaves the temporary file in the directory. *)
Theorem C35_failed_rename_leaves_file_refuted :
  exists x os, atomic_write_file (fun _ => true) 5 x ex_fs (txt "ivf.npy") = (os, Err)
    /\ read ex_fs (txt ".ivf.npy.5.100.tmp") = None /\ read (exec_all ex_fs os) (txt ".ivf.npy.5.100.tmp") = Some [7; 8; 9]%Z.
Proof. exists (ex_io false true). eexists. split; [reflexivity|]. split; vm_compute; reflexivity. Qed.
Print Assumptions C35_failed_rename_leaves_file_refuted.
(** A failed fsync of the directory is not reported: the call succeeds, and a loss of power can
    still bring the old content back. *)
Theorem C35_unreported_dirsync_refuted :
  exists x os, atomic_write_file (fun _ => true) 5 x ex_fs (txt "ivf.npy") = (os, Ok tt)
    /\ read (exec_all ex_fs os) (txt "ivf.npy") = Some [7; 8; 9]%Z
    /\ after_power_loss (exec_all ex_fs os) (txt "ivf.npy") (Some [1; 2]%Z).
Proof.
  exists (ex_io true false). eexists. split; [reflexivity|]. split; [vm_compute; reflexivity|].
  exists []. split; [repeat constructor|]. vm_compute. exists [1; 2]%Z. split; reflexivity.
Qed.
Print Assumptions C35_unreported_dirsync_refuted.
Example C35_example :
  settled ex_fs (txt "ivf.npy") /\ fresh_next ex_fs
  /\ atomic_write_file (fun _ => true) 5 (ex_io true true) ex_fs (txt "ivf.npy")
     = ([Create (txt ".ivf.npy.5.100.tmp"); Write 1 [7; 8]%Z; Write 1 [9]%Z; Fsync 1; Rename (txt ".ivf.npy.5.100.tmp") (txt "ivf.npy"); FsyncDir], Ok tt)
  /\ read ex_fs (txt "ivf.npy") = Some [1; 2]%Z.
Proof.
  split; [|split; [|split; [vm_compute; reflexivity|reflexivity]]].
  - split; [reflexivity|]. split; [constructor|]. intros i H. vm_compute in H. injection H as <-. split; [apply le_n|reflexivity].
  - intros n i H. unfold ex_fs in *. cbn [entries next] in *. destruct (name_eqb n (txt "ivf.npy")); [|discriminate]. injection H as <-. apply le_n.
Qed.
