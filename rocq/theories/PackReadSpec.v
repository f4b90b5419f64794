(** What a pack file contains, from the format description: at an offset there is
    either a compressed object, or a compressed delta together with the name of its
    base, and a delta stands for the result of applying it. *)
From Verif Require Import Base PackHdrSpec VarintSpec DeltaSpec PackReadModel.

(** A pack whose file is smaller than 2^63 bytes, seen through windows that show at
    least [oid_size] bytes where the file has that many, or all there are. *)
Record pack_ok (p : pack) : Prop := {
  po_bytes : bytes (pk_file p);
  po_size : pk_size p < 2 ^ 63;
  po_oid : (20 <= pk_oid p)%nat;
  po_win : forall off, 0 <= off < pk_size p -> (Nat.min (pk_oid p) (length (rest_at p off)) <= pk_win p off)%nat;
  po_find : forall id o, pk_find p id = Ok o -> 0 <= o
}.

(** [stored p pos size d]: the stream at [pos] inflates to [d], of the announced size
    (a 64-bit number).  A pack ends with a checksum, so streams start before it. *)
Definition stored (p : pack) (pos size : Z) (d : list Z) : Prop :=
  0 <= pos <= pk_size p - Z.of_nat (pk_oid p) /\
  pk_inflate p (rest_at p pos) = ZDone d /\ Z.of_nat (length d) = size mod 2 ^ 64.

(** The entry at [off] is an object of type [ty] with content [d]. *)
Definition plain_entry (p : pack) (off ty : Z) (d : list Z) : Prop :=
  0 <= off < pk_size p /\
  exists h size rest, rest_at p off = h ++ rest /\ (length h <= 10)%nat /\ header_code h ty size /\ 1 <= ty <= 4 /\
    stored p (off + Z.of_nat (length h)) size d.

(** The name [nm] after the header of a delta of type [ty] at [off] means the base at [base]. *)
Inductive base_name (p : pack) (off : Z) : Z -> list Z -> Z -> Prop :=
| bn_ofs nm base : varint_code nm (off - base) -> 0 < base < off -> base_name p off 6 nm base
| bn_ref nm base : length nm = pk_oid p -> pk_find p nm = Ok base -> base <> 0 -> base_name p off 7 nm base.

(** The entry at [off] is the delta [dl] against the entry at [base]. *)
Definition delta_entry (p : pack) (off base : Z) (dl : list Z) : Prop :=
  0 <= off < pk_size p /\
  exists h ty size nm rest, rest_at p off = h ++ nm ++ rest /\ (length h <= 10)%nat /\ header_code h ty size /\
    base_name p off ty nm base /\
    off + Z.of_nat (length h) <= pk_size p - Z.of_nat (pk_oid p) /\
    stored p (off + Z.of_nat (length h) + Z.of_nat (length nm)) size dl.

(** [dl] turns [base] into [out] (sizes are 32-bit numbers of at most five bytes). *)
Definition delta_means (base dl out : list Z) : Prop :=
  exists h1 b h2 r body, dl = h1 ++ h2 ++ body /\ size_code h1 b /\ size_code h2 r /\
    (length h1 <= 5)%nat /\ (length h2 <= 5)%nat /\
    b mod 2 ^ 32 = Z.of_nat (length base) /\ r mod 2 ^ 32 = Z.of_nat (length out) /\ delta_body base body out.

(** The object at [off]: its type and content. *)
Inductive denotes (p : pack) : Z -> Z -> list Z -> Prop :=
| dn_plain off ty d : plain_entry p off ty d -> denotes p off ty d
| dn_delta off base dl ty b d : delta_entry p off base dl -> denotes p base ty b -> delta_means b dl d -> denotes p off ty d.

(** Every stream in the pack inflates to bytes, and to fewer than 2^64 of them. *)
Definition inflates_bytes (p : pack) : Prop :=
  forall l d, pk_inflate p l = ZDone d -> bytes d /\ Z.of_nat (length d) < 2 ^ 64.
