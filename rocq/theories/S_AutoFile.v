(** Properly nested use of files, and programs that do not keep a FILE for longer than its auto_file. *)
From Coq Require Import String.
From Verif Require Import Base M_AutoFile.

(** every file is closed after it is opened, files opened in between before it, and used only while open *)
Inductive nested : list nat -> list event -> Prop :=
| nested_nil live : nested live []
| nested_use live f v : In f live -> nested live v -> nested live (EUse f :: v)
| nested_pair live f u v : ~ In f live -> nested (f :: live) u -> nested live v -> nested live (EOpen f :: u ++ EClose f :: v).

Definition event_eq : forall a b : event, {a = b} + {a <> b}.
Proof. decide equality; apply Nat.eq_dec. Defined.
Definition times (e : event) (t : list event) : nat := count_occ event_eq t e.

(** uses only auto_files of the blocks around, of which there are [n] *)
Fixpoint scoped (n : nat) (p : prog) : Prop :=
  match p with
  | Ret | Throw _ => True
  | Use k rest | Keep k rest => (k < n)%nat /\ scoped n rest
  | UseKept _ => False
  | Block _ body rest => scoped (S n) body /\ scoped n rest
  end.

(** how the program ends: [files] is the number of fopen calls made before it. The second result is that number at the end *)
Fixpoint ending (can : string -> nat -> bool) (files : nat) (p : prog) : option string * nat :=
  match p with
  | Ret => (None, files)
  | Throw msg => (Some msg, files)
  | Use _ rest | Keep _ rest | UseKept rest => ending can files rest
  | Block name body rest =>
      if can name files then
        match ending can (S files) body with
        | (None, files) => ending can files rest
        | stopped => stopped
        end
      else (Some ("Unable to open file '" ++ name ++ "'.")%string, S files)
  end.
