(** Shared vocabulary of the model: error values and outcomes of a call. *)
From Coq Require Export NArith ZArith Lia.
From stdpp Require Export prelude gmap strings list_numbers numbers.
From stdpp Require Export list.

(** Error values, kernel/src/error.rs:17-200 (the constructors returned by the
    modelled code; payloads are dropped except for [AlreadyMapped] and
    [BaseOverflow]). *)
Inductive kerror :=
| BadAddress | CoreAlreadyAllocated | CoreAllocatedToDifferentProcess
| CoreNotAllocated | OutOfMemory | ReplicaNotSet | ProcessNotSet
| NotSupported | OutOfPids | NoExecutorForCore
| InvalidSyscallArgument1 | InvalidVSpaceOperation | InvalidProcessOperation
| InvalidSystemOperation | InvalidFileOperation
| InvalidLayout | CacheExhausted | CacheFull | CantGrowFurther (count : N)
| NoProcessFoundForPid | UnableToLoad | NoExecutorAllocated
| ExecutorCacheExhausted | InvalidGlobalThreadId
| NotEnoughMemory | InvalidFrameId | TooManyProcesses
| TooManyRegisteredFrames | InvalidFileDescriptor | InvalidFrame
| FrameStillMapped | AlreadyMapped (base : N) | BaseOverflow (base : N)
| NotMapped | InvalidLength | InvalidBase | InvalidFile | InvalidFlags
| InvalidOffset | PermissionError | AlreadyPresent | DirectoryError
| OpenFileLimit | FileDescForPidAlreadyAdded | NoFileDescForPid
| InvalidUserBufferArgs | NotAUserVAddr | UserPtMissingReadAccess
| UserPtMissingWriteAccess | NotInRightAddressSpaceForReading
| NotInRightAddressSpaceForWriting | NotAValidUtf8String
| PidMismatchInProcessArgument | SliceLengthMismatchForWriting
| UserBufferTooLarge | TryFromIntError | FileDescriptorTooLarge
| MalformedCmdLine | InvalidCmdLineOptions | DCMNotEnoughMemory
| RackscaleRPCError | NoHandlerForRPCType | DuplicateRPCType.
Global Instance kerror_eq_dec : EqDecision kerror.
Proof. solve_decision. Defined.

(** A call either returns [Ok], returns an error value, or panics. *)
Inductive res (A : Type) := Ok (a : A) | Err (e : kerror) | Panic.
Arguments Ok {A} a. Arguments Err {A} e. Arguments Panic {A}.

Global Instance res_eq_dec A `{EqDecision A} : EqDecision (res A).
Proof. solve_decision. Defined.

Definition is_panic {A} (r : res A) : bool :=
  match r with Panic => true | _ => false end.
Definition is_ok {A} (r : res A) : bool :=
  match r with Ok _ => true | _ => false end.
