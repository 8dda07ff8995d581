(** What C30 says. *)
From Verif Require Import Base Text_Spec Text_Model Table Http_Spec.

(** Commands that change how a node works and that only a local client may give. *)
Definition privileged : list bytes := map lit
  ["BeginBackup"; "ClearCrashCommands"; "ConflictReport"; "Detach"; "Attach"; "SetConflictParams"; "SetConflictPageLocks";
   "EnableSQLTracing"; "BlockWrites"; "UnblockWrites"; "SetMaxSocketThreads"; "SetBlockingQueueTimeRateLimit"; "ClearBlockingQueue";
   "SetPriority"]%string.
(** Control commands anybody may give. *)
Definition non_secure : list bytes := map lit ["SuppressCommandPort"; "ClearCommandPort"; "GetCommitHash"; "CRASH_COMMAND"]%string.
Definition is_privileged (m : bytes) : Prop := exists x, In x privileged /\ SToLower m = SToLower x.
Definition is_non_secure (m : bytes) : Prop := exists x, In x non_secure /\ SToLower m = SToLower x.

(** An IPv4 address, most significant byte first. *)
Definition address : Type := (ascii * ascii * ascii * ascii)%type.
Definition localhost : address := ("127", "000", "000", "001")%char.
