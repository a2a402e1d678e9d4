(** Model of the command line tools ldaptor/_scripts/ldifdiff.py and ldaptor/_scripts/ldifpatch.py.
    Two levels: [ldifdiff] and [ldifpatch] are what the scripts mean, with files that are read and
    written as octets and the text of a node taken from toWire(); [ldifdiff_text] and [ldifpatch_text]
    are the scripts as they are, with files opened as text. Not modelled: the options (no argument of
    them reaches main), the messages on standard error and the reactor, which stops when the chain of
    callbacks has come to its end. *)
From Verif Require Import Base Utf8Model DnModel EntryModel InmemModel ServerModel TreeDiffModel LoadModel LdifModel.

(** How a tool ends: sys.exit(0), sys.exit(1) after a failure that [error] has printed (ldifdiff.py 9-12, ldifpatch.py 10-13),
    an exception that leaves main before reactor.run(), or a reactor that is never stopped. *)
Inductive ending := Exit0 | Exit1 (x : exn) | Raises (x : exn) | Runs.

Section Tools.
  Variable lower : str -> str.                (** str.lower() *)
  Variable io : Z -> Z -> res Z.              (** int(two characters, 16), see DnModel *)
  Variable vio : str -> res Z.                (** int(bytes) outside plain decimals, see UtilModel *)
  Variable oc : bool.                         (** iteration order of _object_class_keys, see LdifModel *)
  Variable hash_pair : str * str -> Z.        (** hash(), see TreeDiffModel *)
  Variable hash_tuple : list Z -> Z.
  Variable depth : nat.                       (** Python's recursion limit, see InmemModel *)

  (** delta.py 136-143, 227-231, 279-284: op.asLDIF(), see LdifModel *)
  Definition op_text (op : top) : res bytes :=
    match op with
    | TModify d ms => modify_asLDIF d ms
    | TAdd e => add_asLDIF lower oc e
    | TDelete d => delete_asLDIF d
    end.
  (** ldifdiff.py 17-18: the loop of output. What was written before an exception stays. *)
  Fixpoint write_ops (ops : list top) (w : bytes) : bytes * option exn :=
    match ops with
    | [] => (w, None)
    | op :: r => match op_text op with Ok t => write_ops r (w ++ t) | Err x => (w, Some x) end
    end.
  (** ldifdiff.py 15-18: output(result, outputFile) *)
  Definition diff_output (ops : list top) : bytes * ending :=
    match write_ops ops ldif_header with
    | (w, None) => (w, Exit0)
    | (w, Some x) => (w, Exit1 x)
    end.
  (** ldifdiff.py 21-41: main(filename1, filename2, outputFile): what is written and how it ends. The
      second file is read in a callback, where an exception is a failure. *)
  Definition ldifdiff (file1 file2 : bytes) : bytes * ending :=
    match fromLDIFFile lower io vio oc depth file1 with
    | LRaised x => ([], Raises x)
    | LNever => ([], Runs)
    | LFailed x => ([], Exit1 x)
    | LDone db1 =>
        match fromLDIFFile lower io vio oc depth file2 with
        | LRaised x | LFailed x => ([], Exit1 x)
        | LNever => ([], Runs)
        | LDone db2 =>
            match diff_tree lower hash_pair hash_tuple depth depth db1 0%nat db2 0%nat with
            | Err x => ([], Exit1 x)
            | Ok ops => diff_output ops
            end
        end
    end.

  (** ldifdelta.py 77-155: the objects that gotEntry is given *)
  Definition op_of (r : record) : list top :=
    match r with
    | RModify d ms => [TModify d ms]
    | RAdd e => [TAdd e]
    | RDelete d => [TDelete d]
    | REntry _ => []
    end.
  (** ldifdelta.py 158-172: fromLDIFFile(f), f a file with the octets [text] *)
  Definition patches (text : bytes) : res (list top) :=
    match parse lower io vio true (match text with [] => [] | _ => [text] end) with
    | (rs, Ok _) => Ok (concat (map op_of rs))
    | (_, Err x) => Err x
    end.
  (** ldifpatch.py 19-20: _write(node), with node.toWire() for str(node) *)
  Definition write_node (h : heap) (c : ref) (w : bytes) : bytes * option exn :=
    match (do n <- deref h c; entry_toWire lower oc (n_entry n)) with
    | Ok t => (w ++ t, None)
    | Err x => (w, Some x)
    end.
  (** ldifpatch.py 16-22: output(tree, outputFile). The Deferred of subtree is dropped, and with it
      the failures below the root. *)
  Definition patch_output (h : heap) : bytes * ending :=
    match subtree (write_node h) depth h 0%nat ldif_header with
    | (w, None) => (w, Exit0)
    | (w, Some x) => (w, Exit1 x)
    end.
  (** ldifpatch.py 25-43: main(dataFile, patchFile, outputFile). p.patch(db) gives a Deferred that
      nobody looks at: the outcomes of the operations are ignored. *)
  Definition ldifpatch (data patch : bytes) : bytes * ending :=
    match fromLDIFFile lower io vio oc depth data with
    | LRaised x => ([], Raises x)
    | LNever => ([], Runs)
    | LFailed x => ([], Exit1 x)
    | LDone db =>
        match patches patch with
        | Err x => ([], Exit1 x)
        | Ok ops => patch_output (fst (patch_ops lower oc depth 0%nat ops db))
        end
    end.

  (** *** The scripts as they are *)
  (** A file object: opened as text, it gives str, and dataReceived adds that to a buffer of octets
      (inmemory.py 189-200; twisted's LineReceiver: self._buffer += data). Nothing is added of an
      empty file. *)
  Definition fromTextFile (file : str) : loaded :=
    match file with [] => fromLDIFFile lower io vio oc depth [] | _ => LRaised EType end.
  (** ldifdiff.py 22-25: open(filename) *)
  Definition ldifdiff_text (file1 file2 : str) : bytes * ending :=
    match fromTextFile file1 with
    | LRaised x => ([], Raises x)
    | LNever => ([], Runs)
    | LFailed x => ([], Exit1 x)
    | LDone db1 =>
        match fromTextFile file2 with
        | LRaised x | LFailed x => ([], Exit1 x)
        | LNever => ([], Runs)
        | LDone db2 =>
            match diff_tree lower hash_pair hash_tuple depth depth db1 0%nat db2 0%nat with
            | Err x => ([], Exit1 x)
            | Ok ops => ([], Exit1 EType)  (* 16: write(bytes) to a text file *)
            end
        end
    end.
  (** ldifpatch.py 61-62: open(config["data"]) and sys.stdin; 17: write(bytes) to sys.stdout *)
  Definition ldifpatch_text (data patch : str) : bytes * ending :=
    match fromTextFile data with
    | LRaised x => ([], Raises x)
    | LNever => ([], Runs)
    | LFailed x => ([], Exit1 x)
    | LDone db => ([], Exit1 EType)
    end.
End Tools.
