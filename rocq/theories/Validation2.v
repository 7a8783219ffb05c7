(* The model against the tests of the repository: for every file /repo/Test/c--/t*.cmm (after
   the C preprocessor, which the driver runs first), the text that the model prints with -O is,
   byte for byte, the expected output committed in /repo/Test/c--: IM.Opt (vm2ic.c), VM.Opt
   (vm2vm.c) and TaC.Opt (vm2tac.c).  In the TaC files the mask #0x00ff of vmChr is written
   #255 here (see AsmText.v).  These are tests of the model, not theorems. *)
From Coq Require Import ZArith String List.
From Verif Require Import Lexer AsmText.
Open Scope Z_scope.
Local Notation "'text' s" := (Some (codes s%string)) (at level 10, s at level 9, only parsing).

Definition t220_src : list Z := codes "# 0 ""/repo/Test/c--/t220.cmm""
# 0 ""<built-in>""
# 0 ""<command-line>""
# 1 ""/repo/Test/c--/t220.cmm""





public int main() {
  int a,i;
  while (true) {
    if (1>0) continue;
    while (i<100) {
      if (i<0) continue;
      a = 3;
      if (i<0) break;
    }
    if (1>0) break;
  }
  return 0;
}
"%string.
Example t220_ic : compileText true false vm2ic t220_src = text "vmNam(0)
vmEntry(2)
vmLab(1)
vmJmp(1)
vmLab(2)
vmLdLoc(2)
vmLdCns(100)
vmLt()
vmJF(3)
vmLdLoc(2)
vmLdCns(0)
vmLt()
vmJF(4)
vmJmp(2)
vmLab(4)
vmLdCns(3)
vmStLoc(1)
vmPop()
vmLdLoc(2)
vmLdCns(0)
vmLt()
vmJF(5)
vmJmp(3)
vmLab(5)
vmJmp(2)
vmLab(3)
vmJmp(6)
vmLab(6)
vmLdCns(0)
vmMReg()
vmRet()
".
Proof. vm_compute. reflexivity. Qed.
Example t220_vm : compileText true false vm2vm t220_src = text "_main
	ENTRY	2
.L1
	JMP	.L1
.L2
	LDL	2
	LDC	100
	LT
	JF	.L3
	LDL	2
	LDC	0
	LT
	JF	.L4
	JMP	.L2
.L4
	LDC	3
	STL	1
	POP
	LDL	2
	LDC	0
	LT
	JF	.L5
	JMP	.L3
.L5
	JMP	.L2
.L3
	JMP	.L6
.L6
	LDC	0
	MREG
	RET
".
Proof. vm_compute. reflexivity. Qed.
Example t220_tac : compileText true false vm2tac t220_src = text "_main	PUSH	FP
	LD	FP,SP
	PUSH	G3
	PUSH	G4
	CALL	__stkChk
.L1
	JMP	.L1
.L2
	CMP	G4,#100
	JGE	.L3
	CMP	G4,#0
	JGE	.L4
	JMP	.L2
.L4
	LD	G3,#3
	CMP	G4,#0
	JGE	.L5
	JMP	.L3
.L5
	JMP	.L2
.L3
	JMP	.L6
.L6
	LD	G0,#0
	POP	G4
	POP	G3
	POP	FP
	RET
".
Proof. vm_compute. reflexivity. Qed.

Definition t230_src : list Z := codes "# 0 ""/repo/Test/c--/t230.cmm""
# 0 ""<built-in>""
# 0 ""<command-line>""
# 1 ""/repo/Test/c--/t230.cmm""





public int main() {
  int a;

  if (a>1) a=1;
  if (1>a) a=1;

  if (a>=1) a=1;
  if (1>=a) a=1;

  if (a==1) a=1;
  if (1==a) a=1;

  if (a!=1) a=1;
  if (1!=a) a=1;

  if (a<=1) a=1;
  if (1<=a) a=1;

  if (a<1) a=1;
  if (1<a) a=1;
  return 0;
}
"%string.
Example t230_ic : compileText true false vm2ic t230_src = text "vmNam(0)
vmEntry(1)
vmLdLoc(1)
vmLdCns(1)
vmGt()
vmJF(1)
vmLdCns(1)
vmStLoc(1)
vmPop()
vmLab(1)
vmLdCns(1)
vmLdLoc(1)
vmGt()
vmJF(2)
vmLdCns(1)
vmStLoc(1)
vmPop()
vmLab(2)
vmLdLoc(1)
vmLdCns(1)
vmGe()
vmJF(3)
vmLdCns(1)
vmStLoc(1)
vmPop()
vmLab(3)
vmLdCns(1)
vmLdLoc(1)
vmGe()
vmJF(4)
vmLdCns(1)
vmStLoc(1)
vmPop()
vmLab(4)
vmLdLoc(1)
vmLdCns(1)
vmEq()
vmJF(5)
vmLdCns(1)
vmStLoc(1)
vmPop()
vmLab(5)
vmLdCns(1)
vmLdLoc(1)
vmEq()
vmJF(6)
vmLdCns(1)
vmStLoc(1)
vmPop()
vmLab(6)
vmLdLoc(1)
vmLdCns(1)
vmNe()
vmJF(7)
vmLdCns(1)
vmStLoc(1)
vmPop()
vmLab(7)
vmLdCns(1)
vmLdLoc(1)
vmNe()
vmJF(8)
vmLdCns(1)
vmStLoc(1)
vmPop()
vmLab(8)
vmLdLoc(1)
vmLdCns(1)
vmLe()
vmJF(9)
vmLdCns(1)
vmStLoc(1)
vmPop()
vmLab(9)
vmLdCns(1)
vmLdLoc(1)
vmLe()
vmJF(10)
vmLdCns(1)
vmStLoc(1)
vmPop()
vmLab(10)
vmLdLoc(1)
vmLdCns(1)
vmLt()
vmJF(11)
vmLdCns(1)
vmStLoc(1)
vmPop()
vmLab(11)
vmLdCns(1)
vmLdLoc(1)
vmLt()
vmJF(12)
vmLdCns(1)
vmStLoc(1)
vmPop()
vmLab(12)
vmLdCns(0)
vmMReg()
vmRet()
".
Proof. vm_compute. reflexivity. Qed.
Example t230_vm : compileText true false vm2vm t230_src = text "_main
	ENTRY	1
	LDL	1
	LDC	1
	GT
	JF	.L1
	LDC	1
	STL	1
	POP
.L1
	LDC	1
	LDL	1
	GT
	JF	.L2
	LDC	1
	STL	1
	POP
.L2
	LDL	1
	LDC	1
	GE
	JF	.L3
	LDC	1
	STL	1
	POP
.L3
	LDC	1
	LDL	1
	GE
	JF	.L4
	LDC	1
	STL	1
	POP
.L4
	LDL	1
	LDC	1
	EQ
	JF	.L5
	LDC	1
	STL	1
	POP
.L5
	LDC	1
	LDL	1
	EQ
	JF	.L6
	LDC	1
	STL	1
	POP
.L6
	LDL	1
	LDC	1
	NE
	JF	.L7
	LDC	1
	STL	1
	POP
.L7
	LDC	1
	LDL	1
	NE
	JF	.L8
	LDC	1
	STL	1
	POP
.L8
	LDL	1
	LDC	1
	LE
	JF	.L9
	LDC	1
	STL	1
	POP
.L9
	LDC	1
	LDL	1
	LE
	JF	.L10
	LDC	1
	STL	1
	POP
.L10
	LDL	1
	LDC	1
	LT
	JF	.L11
	LDC	1
	STL	1
	POP
.L11
	LDC	1
	LDL	1
	LT
	JF	.L12
	LDC	1
	STL	1
	POP
.L12
	LDC	0
	MREG
	RET
".
Proof. vm_compute. reflexivity. Qed.
Example t230_tac : compileText true false vm2tac t230_src = text "_main	PUSH	FP
	LD	FP,SP
	PUSH	G3
	CALL	__stkChk
	CMP	G3,#1
	JLE	.L1
	LD	G3,#1
.L1
	CMP	G3,#1
	JGE	.L2
	LD	G3,#1
.L2
	CMP	G3,#1
	JLT	.L3
	LD	G3,#1
.L3
	CMP	G3,#1
	JGT	.L4
	LD	G3,#1
.L4
	CMP	G3,#1
	JNZ	.L5
	LD	G3,#1
.L5
	CMP	G3,#1
	JNZ	.L6
	LD	G3,#1
.L6
	CMP	G3,#1
	JZ	.L7
	LD	G3,#1
.L7
	CMP	G3,#1
	JZ	.L8
	LD	G3,#1
.L8
	CMP	G3,#1
	JGT	.L9
	LD	G3,#1
.L9
	CMP	G3,#1
	JLT	.L10
	LD	G3,#1
.L10
	CMP	G3,#1
	JGE	.L11
	LD	G3,#1
.L11
	CMP	G3,#1
	JLE	.L12
	LD	G3,#1
.L12
	LD	G0,#0
	POP	G3
	POP	FP
	RET
".
Proof. vm_compute. reflexivity. Qed.

Definition t240_src : list Z := codes "# 0 ""/repo/Test/c--/t240.cmm""
# 0 ""<built-in>""
# 0 ""<command-line>""
# 1 ""/repo/Test/c--/t240.cmm""




int[][] a = array(2,2);
int[] b = array(2);
struct T {int x; int[] a; T b;};
T t;
public int[] f();

public int main() {
     (a[1])[2] = 2;
     (t.a)[1] = 2;
     (t.b).b.x = 2;
     f()[1+1]=1;
     (b=f())[2+2]=2;
     return 0;
}
"%string.
Example t240_ic : compileText true false vm2ic t240_src = text "vmLab(1)
vmWs(2)
vmLab(2)
vmWs(2)
vmLab(3)
vmDwLab(1)
vmDwLab(2)
vmNam(0)
vmDwLab(3)
vmLab(4)
vmWs(2)
vmNam(1)
vmDwLab(4)
vmNam(6)
vmWs(1)
vmNam(8)
vmEntry(0)
vmLdCns(2)
vmLdGlb(0)
vmLdCns(1)
vmLdWrd()
vmLdCns(2)
vmStWrd()
vmPop()
vmLdCns(2)
vmLdGlb(6)
vmLdCns(1)
vmLdWrd()
vmLdCns(1)
vmStWrd()
vmPop()
vmLdCns(2)
vmLdGlb(6)
vmLdCns(2)
vmLdWrd()
vmLdCns(2)
vmLdWrd()
vmLdCns(0)
vmStWrd()
vmPop()
vmLdCns(1)
vmCallF(0, 7)
vmLdCns(2)
vmStWrd()
vmPop()
vmLdCns(2)
vmCallF(0, 7)
vmStGlb(1)
vmLdCns(4)
vmStWrd()
vmPop()
vmLdCns(0)
vmMReg()
vmRet()
".
Proof. vm_compute. reflexivity. Qed.
Example t240_vm : compileText true false vm2vm t240_src = text ".L1
	WS	2
.L2
	WS	2
.L3
	DW	.L1
	DW	.L2
.a
	DW	.L3
.L4
	WS	2
.b
	DW	.L4
.t
	WS	1
_main
	ENTRY	0
	LDC	2
	LDG	.a
	LDC	1
	LDW
	LDC	2
	STW
	POP
	LDC	2
	LDG	.t
	LDC	1
	LDW
	LDC	1
	STW
	POP
	LDC	2
	LDG	.t
	LDC	2
	LDW
	LDC	2
	LDW
	LDC	0
	STW
	POP
	LDC	1
	CALLF	0,_f
	LDC	2
	STW
	POP
	LDC	2
	CALLF	0,_f
	STG	.b
	LDC	4
	STW
	POP
	LDC	0
	MREG
	RET
".
Proof. vm_compute. reflexivity. Qed.
Example t240_tac : compileText true false vm2tac t240_src = text ".L1	WS	2
.L2	WS	2
.L3	DW	.L1
	DW	.L2
.a	DW	.L3
.L4	WS	2
.b	DW	.L4
.t	WS	1
_main	PUSH	FP
	LD	FP,SP
	CALL	__stkChk
	LD	G0,.a
	ADDS	G0,#1
	LD	G0,0,G0
	ADDS	G0,#2
	LD	G1,#2
	ST	G1,0,G0
	LD	G0,.t
	ADDS	G0,#1
	LD	G0,0,G0
	ADDS	G0,#1
	LD	G1,#2
	ST	G1,0,G0
	LD	G0,.t
	ADDS	G0,#2
	LD	G0,0,G0
	ADDS	G0,#2
	LD	G0,0,G0
	LD	G1,#2
	ST	G1,0,G0
	CALL	_f
	ADDS	G0,#2
	LD	G1,#1
	ST	G1,0,G0
	CALL	_f
	ST	G0,.b
	ADDS	G0,#4
	LD	G1,#2
	ST	G1,0,G0
	LD	G0,#0
	POP	FP
	RET
".
Proof. vm_compute. reflexivity. Qed.

Definition t250_src : list Z := codes "# 0 ""/repo/Test/c--/t250.cmm""
# 0 ""<built-in>""
# 0 ""<command-line>""
# 1 ""/repo/Test/c--/t250.cmm""



boolean a,b,c,d,e,f,g,h,i;

public int main() {
  a = true && false && true;
  b = true || false || true;
  c = 1>1 && 2>2 && 3>3;
  d = 1>1 || 2>2 || 3>3;
  e = 1>1 || 2>2 || 3>3 && 4>4 && 5>5;
  f = 1>1 && 2>2 && 3>3 || 4>4 || 5>5;
  g = 1>1 || 2>2 && 3>3 && 4>4 || 5>5;
  return 0;
}
"%string.
Example t250_ic : compileText true false vm2ic t250_src = text "vmNam(0)
vmWs(1)
vmNam(1)
vmWs(1)
vmNam(2)
vmWs(1)
vmNam(3)
vmWs(1)
vmNam(4)
vmWs(1)
vmNam(5)
vmWs(1)
vmNam(6)
vmWs(1)
vmNam(7)
vmWs(1)
vmNam(8)
vmWs(1)
vmNam(9)
vmEntry(0)
vmLdCns(0)
vmStGlb(0)
vmPop()
vmLdCns(1)
vmStGlb(1)
vmPop()
vmLdCns(0)
vmStGlb(2)
vmPop()
vmLdCns(0)
vmStGlb(3)
vmPop()
vmLdCns(0)
vmStGlb(4)
vmPop()
vmLdCns(0)
vmStGlb(5)
vmPop()
vmLdCns(0)
vmStGlb(6)
vmPop()
vmLdCns(0)
vmMReg()
vmRet()
".
Proof. vm_compute. reflexivity. Qed.
Example t250_vm : compileText true false vm2vm t250_src = text ".a
	WS	1
.b
	WS	1
.c
	WS	1
.d
	WS	1
.e
	WS	1
.f
	WS	1
.g
	WS	1
.h
	WS	1
.i
	WS	1
_main
	ENTRY	0
	LDC	0
	STG	.a
	POP
	LDC	1
	STG	.b
	POP
	LDC	0
	STG	.c
	POP
	LDC	0
	STG	.d
	POP
	LDC	0
	STG	.e
	POP
	LDC	0
	STG	.f
	POP
	LDC	0
	STG	.g
	POP
	LDC	0
	MREG
	RET
".
Proof. vm_compute. reflexivity. Qed.
Example t250_tac : compileText true false vm2tac t250_src = text ".a	WS	1
.b	WS	1
.c	WS	1
.d	WS	1
.e	WS	1
.f	WS	1
.g	WS	1
.h	WS	1
.i	WS	1
_main	PUSH	FP
	LD	FP,SP
	CALL	__stkChk
	LD	G0,#0
	ST	G0,.a
	LD	G0,#1
	ST	G0,.b
	LD	G0,#0
	ST	G0,.c
	LD	G0,#0
	ST	G0,.d
	LD	G0,#0
	ST	G0,.e
	LD	G0,#0
	ST	G0,.f
	LD	G0,#0
	ST	G0,.g
	LD	G0,#0
	POP	FP
	RET
".
Proof. vm_compute. reflexivity. Qed.

Definition t260_src : list Z := codes "# 0 ""/repo/Test/c--/t260.cmm""
# 0 ""<built-in>""
# 0 ""<command-line>""
# 1 ""/repo/Test/c--/t260.cmm""



boolean a,b,c,d,e,f,g,h,i;

public int main() {
  if (true && false && true) a = true; else a = false;
  if (true || false || true) b = true;
  if (1>1 && 2>2 && 3>3) c = true;
  if (1>1 || 2>2 || 3>3) d = true;
  if (1>1 || 2>2 || 3>3 && 4>4 && 5>5) e = true;
  if (1>1 && 2>2 && 3>3 || 4>4 || 5>5) f = true;
  if (1>1 || 2>2 && 3>3 && 4>4 || 5>5) g = true;
  return 0;
}
"%string.
Example t260_ic : compileText true false vm2ic t260_src = text "vmNam(0)
vmWs(1)
vmNam(1)
vmWs(1)
vmNam(2)
vmWs(1)
vmNam(3)
vmWs(1)
vmNam(4)
vmWs(1)
vmNam(5)
vmWs(1)
vmNam(6)
vmWs(1)
vmNam(7)
vmWs(1)
vmNam(8)
vmWs(1)
vmNam(9)
vmEntry(0)
vmLdCns(0)
vmStGlb(0)
vmPop()
vmLdCns(1)
vmStGlb(1)
vmPop()
vmLdCns(0)
vmMReg()
vmRet()
".
Proof. vm_compute. reflexivity. Qed.
Example t260_vm : compileText true false vm2vm t260_src = text ".a
	WS	1
.b
	WS	1
.c
	WS	1
.d
	WS	1
.e
	WS	1
.f
	WS	1
.g
	WS	1
.h
	WS	1
.i
	WS	1
_main
	ENTRY	0
	LDC	0
	STG	.a
	POP
	LDC	1
	STG	.b
	POP
	LDC	0
	MREG
	RET
".
Proof. vm_compute. reflexivity. Qed.
Example t260_tac : compileText true false vm2tac t260_src = text ".a	WS	1
.b	WS	1
.c	WS	1
.d	WS	1
.e	WS	1
.f	WS	1
.g	WS	1
.h	WS	1
.i	WS	1
_main	PUSH	FP
	LD	FP,SP
	CALL	__stkChk
	LD	G0,#0
	ST	G0,.a
	LD	G0,#1
	ST	G0,.b
	LD	G0,#0
	POP	FP
	RET
".
Proof. vm_compute. reflexivity. Qed.

Definition t270_src : list Z := codes "# 0 ""/repo/Test/c--/t270.cmm""
# 0 ""<built-in>""
# 0 ""<command-line>""
# 1 ""/repo/Test/c--/t270.cmm""





int i;

# 1 ""/repo/include/stdio.hmm"" 1
# 46 ""/repo/include/stdio.hmm""
struct FILE {
  int fd;
  int mode;
  char[] buf;
  int size;
  int len;
  int cnt;
  boolean tty;
  boolean eof;
  boolean err;
  int slot;
};

public void _stdioInit();
public void _flushAll();
public void _perror(char[] msg, int err);

struct Dir {
    char[] name;
    int attr;
    int clst;
    int lenH, lenL;
};
public int readDir(int fd, Dir dir);



public FILE stdin;
public FILE stdout;
public FILE stderr;

public boolean feof(FILE stream);
public boolean ferror(FILE stream);
public boolean fflush(FILE stream);
public boolean fseek(FILE stream, int h, int l);
public boolean fsize(char[] path, int[] size);

public FILE fopen(char[] name, char[] mode);
public boolean fclose(FILE stream);

public boolean fputc(char c, FILE stream);
public boolean putchar(char c);
public boolean fputs(char[] s, FILE stream);
public boolean puts(char[] s);

public char fgetc(FILE stream);
public char getchar();
public char[] fgets(char[] s, int n, FILE stream);
public void perror(char[] s);

public int fprintf(FILE stream, char[] format, ...);
public int printf(char[] format, ...);
# 9 ""/repo/Test/c--/t270.cmm"" 2

public int main() {
  putchar(""ABC""[i-1]);
  return 0;
}
"%string.
Example t270_ic : compileText true false vm2ic t270_src = text "vmNam(0)
vmWs(1)
vmNam(26)
vmWs(1)
vmNam(27)
vmWs(1)
vmNam(28)
vmWs(1)
vmLab(1)
vmStr(""ABC"")
vmNam(73)
vmEntry(0)
vmLdLab(1)
vmLdGlb(0)
vmLdCns(65535)
vmAdd()
vmLdByt()
vmArg()
vmCallF(1, 50)
vmPop()
vmLdCns(0)
vmMReg()
vmRet()
".
Proof. vm_compute. reflexivity. Qed.
Example t270_vm : compileText true false vm2vm t270_src = text ".i
	WS	1
_stdin
	WS	1
_stdout
	WS	1
_stderr
	WS	1
.L1
	STRING	""ABC""
_main
	ENTRY	0
	LDC	.L1
	LDG	.i
	LDC	65535
	ADD
	LDB
	ARG
	CALLF	1,_putchar
	POP
	LDC	0
	MREG
	RET
".
Proof. vm_compute. reflexivity. Qed.
Example t270_tac : compileText true false vm2tac t270_src = text ".i	WS	1
_stdin	WS	1
_stdout	WS	1
_stderr	WS	1
.L1	STRING	""ABC""
_main	PUSH	FP
	LD	FP,SP
	CALL	__stkChk
	LD	G0,.i
	ADD	G0,#65535
	ADD	G0,#.L1
	LD	G0,@G0
	PUSH	G0
	CALL	_putchar
	ADD	SP,#2
	LD	G0,#0
	POP	FP
	RET
".
Proof. vm_compute. reflexivity. Qed.

Definition t280_src : list Z := codes "# 0 ""/repo/Test/c--/t280.cmm""
# 0 ""<built-in>""
# 0 ""<command-line>""
# 1 ""/repo/Test/c--/t280.cmm""




void f() {
  int a;
  int b;
  int c;
  int d;
  int e;
  int f;
  int g;
  int h;

  e = f;
  g = h;
}
"%string.
Example t280_ic : compileText true false vm2ic t280_src = text "vmNam(0)
vmEntry(8)
vmLdLoc(6)
vmStLoc(5)
vmPop()
vmLdLoc(8)
vmStLoc(7)
vmPop()
vmRet()
".
Proof. vm_compute. reflexivity. Qed.
Example t280_vm : compileText true false vm2vm t280_src = text ".f
	ENTRY	8
	LDL	6
	STL	5
	POP
	LDL	8
	STL	7
	POP
	RET
".
Proof. vm_compute. reflexivity. Qed.
Example t280_tac : compileText true false vm2tac t280_src = text ".f	PUSH	FP
	LD	FP,SP
	PUSH	G3
	PUSH	G4
	PUSH	G5
	PUSH	G6
	PUSH	G7
	PUSH	G8
	PUSH	G9
	PUSH	G10
	CALL	__stkChk
	LD	G7,G8
	LD	G9,G10
	POP	G10
	POP	G9
	POP	G8
	POP	G7
	POP	G6
	POP	G5
	POP	G4
	POP	G3
	POP	FP
	RET
".
Proof. vm_compute. reflexivity. Qed.

Definition t290_src : list Z := codes "# 0 ""/repo/Test/c--/t290.cmm""
# 0 ""<built-in>""
# 0 ""<command-line>""
# 1 ""/repo/Test/c--/t290.cmm""





public int main() {
  boolean s = true && false;
  return 0;
}
"%string.
Example t290_ic : compileText true false vm2ic t290_src = text "vmNam(0)
vmEntry(1)
vmLdCns(0)
vmStLoc(1)
vmPop()
vmLdCns(0)
vmMReg()
vmRet()
".
Proof. vm_compute. reflexivity. Qed.
Example t290_vm : compileText true false vm2vm t290_src = text "_main
	ENTRY	1
	LDC	0
	STL	1
	POP
	LDC	0
	MREG
	RET
".
Proof. vm_compute. reflexivity. Qed.
Example t290_tac : compileText true false vm2tac t290_src = text "_main	PUSH	FP
	LD	FP,SP
	PUSH	G3
	CALL	__stkChk
	LD	G3,#0
	LD	G0,#0
	POP	G3
	POP	FP
	RET
".
Proof. vm_compute. reflexivity. Qed.

Definition t300_src : list Z := codes "# 0 ""/repo/Test/c--/t300.cmm""
# 0 ""<built-in>""
# 0 ""<command-line>""
# 1 ""/repo/Test/c--/t300.cmm""





boolean b;

public int main() {
  boolean s = true && (b = true);
  return 0;
}
"%string.
Example t300_ic : compileText true false vm2ic t300_src = text "vmNam(0)
vmWs(1)
vmNam(1)
vmEntry(1)
vmLdCns(1)
vmStGlb(0)
vmStLoc(1)
vmPop()
vmLdCns(0)
vmMReg()
vmRet()
".
Proof. vm_compute. reflexivity. Qed.
Example t300_vm : compileText true false vm2vm t300_src = text ".b
	WS	1
_main
	ENTRY	1
	LDC	1
	STG	.b
	STL	1
	POP
	LDC	0
	MREG
	RET
".
Proof. vm_compute. reflexivity. Qed.
Example t300_tac : compileText true false vm2tac t300_src = text ".b	WS	1
_main	PUSH	FP
	LD	FP,SP
	PUSH	G3
	CALL	__stkChk
	LD	G0,#1
	ST	G0,.b
	LD	G3,G0
	LD	G0,#0
	POP	G3
	POP	FP
	RET
".
Proof. vm_compute. reflexivity. Qed.

Definition t310_src : list Z := codes "# 0 ""/repo/Test/c--/t310.cmm""
# 0 ""<built-in>""
# 0 ""<command-line>""
# 1 ""/repo/Test/c--/t310.cmm""





public void[] __ItoA(int i);

struct TCB {
  int pc;
  int sp;
};

TCB[] tcbs = { {0, 0x5000}, {0, 0x8000}};
# 23 ""/repo/Test/c--/t310.cmm""
void task1() {

}

void task2() {

}
# 46 ""/repo/Test/c--/t310.cmm""
boolean boole;

public int main() {

  int[] vect = __ItoA(0xfe00);



  tcbs[0].pc = addrof(task1);
  tcbs[1].sp = addrof(task2)+100;


  int b = addrof(boole) + 10;

  return 0;
}
"%string.
Example t310_ic : compileText true false vm2ic t310_src = text "vmLab(1)
vmDwCns(0)
vmDwCns(20480)
vmLab(2)
vmDwCns(0)
vmDwCns(32768)
vmLab(3)
vmDwLab(1)
vmDwLab(2)
vmNam(5)
vmDwLab(3)
vmNam(6)
vmEntry(0)
vmRet()
vmNam(7)
vmEntry(0)
vmRet()
vmNam(8)
vmWs(1)
vmNam(9)
vmEntry(2)
vmLdCns(65024)
vmArg()
vmCallF(1, 0)
vmStLoc(1)
vmPop()
vmLdNam(6)
vmLdGlb(5)
vmLdCns(0)
vmLdWrd()
vmLdCns(0)
vmStWrd()
vmPop()
vmLdNam(7)
vmLdCns(100)
vmAdd()
vmLdGlb(5)
vmLdCns(1)
vmLdWrd()
vmLdCns(1)
vmStWrd()
vmPop()
vmLdNam(8)
vmLdCns(10)
vmAdd()
vmStLoc(2)
vmPop()
vmLdCns(0)
vmMReg()
vmRet()
".
Proof. vm_compute. reflexivity. Qed.
Example t310_vm : compileText true false vm2vm t310_src = text ".L1
	DW	0
	DW	20480
.L2
	DW	0
	DW	32768
.L3
	DW	.L1
	DW	.L2
.tcbs
	DW	.L3
.task1
	ENTRY	0
	RET
.task2
	ENTRY	0
	RET
.boole
	WS	1
_main
	ENTRY	2
	LDC	65024
	ARG
	CALLF	1,___ItoA
	STL	1
	POP
	LDC	.task1
	LDG	.tcbs
	LDC	0
	LDW
	LDC	0
	STW
	POP
	LDC	.task2
	LDC	100
	ADD
	LDG	.tcbs
	LDC	1
	LDW
	LDC	1
	STW
	POP
	LDC	.boole
	LDC	10
	ADD
	STL	2
	POP
	LDC	0
	MREG
	RET
".
Proof. vm_compute. reflexivity. Qed.
Example t310_tac : compileText true false vm2tac t310_src = text ".L1	DW	0
	DW	20480
.L2	DW	0
	DW	32768
.L3	DW	.L1
	DW	.L2
.tcbs	DW	.L3
.task1	PUSH	FP
	LD	FP,SP
	CALL	__stkChk
	POP	FP
	RET
.task2	PUSH	FP
	LD	FP,SP
	CALL	__stkChk
	POP	FP
	RET
.boole	WS	1
_main	PUSH	FP
	LD	FP,SP
	PUSH	G3
	PUSH	G4
	CALL	__stkChk
	LD	G0,#65024
	PUSH	G0
	CALL	___ItoA
	ADD	SP,#2
	LD	G3,G0
	LD	G0,.tcbs
	LD	G0,0,G0
	LD	G1,#.task1
	ST	G1,0,G0
	LD	G0,#.task2
	ADD	G0,#100
	LD	G1,.tcbs
	ADDS	G1,#1
	LD	G1,0,G1
	ADDS	G1,#1
	ST	G0,0,G1
	LD	G0,#.boole
	ADD	G0,#10
	LD	G4,G0
	LD	G0,#0
	POP	G4
	POP	G3
	POP	FP
	RET
".
Proof. vm_compute. reflexivity. Qed.

Definition t320_src : list Z := codes "# 0 ""/repo/Test/c--/t320.cmm""
# 0 ""<built-in>""
# 0 ""<command-line>""
# 1 ""/repo/Test/c--/t320.cmm""





public void p();

public int main() {
  int a;
  p();
  p(),p(),p();
  a;
  a,a,a;

  return 0;
}
"%string.
Example t320_ic : compileText true false vm2ic t320_src = text "vmNam(1)
vmEntry(1)
vmCallP(0, 0)
vmCallP(0, 0)
vmCallP(0, 0)
vmCallP(0, 0)
vmLdCns(0)
vmMReg()
vmRet()
".
Proof. vm_compute. reflexivity. Qed.
Example t320_vm : compileText true false vm2vm t320_src = text "_main
	ENTRY	1
	CALLP	0,_p
	CALLP	0,_p
	CALLP	0,_p
	CALLP	0,_p
	LDC	0
	MREG
	RET
".
Proof. vm_compute. reflexivity. Qed.
Example t320_tac : compileText true false vm2tac t320_src = text "_main	PUSH	FP
	LD	FP,SP
	PUSH	G3
	CALL	__stkChk
	CALL	_p
	CALL	_p
	CALL	_p
	CALL	_p
	LD	G0,#0
	POP	G3
	POP	FP
	RET
".
Proof. vm_compute. reflexivity. Qed.

Definition t330_src : list Z := codes "# 0 ""/repo/Test/c--/t330.cmm""
# 0 ""<built-in>""
# 0 ""<command-line>""
# 1 ""/repo/Test/c--/t330.cmm""






public int main() {
     do {
     } while (1>2 && 1>2);

     while (1>2 && 1>2) {
       int a = 1;
     }

     do {
     } while (1>2 || 1>2);

     while (1>2 || 1>2) {
       int a = 1;
     }

     do {
     } while ((1>2 || 1>2) && (1>2 || 1>2));

     while ((1>2 || 1>2) && (1>2 || 1>2)) {
       int a = 1;
     }

     do {
     } while ((1>2 && 1>2) || (1>2 && 1>2));

     while ((1>2 && 1>2) || (1>2 && 1>2)) {
       int a = 1;
     }

     return 0;
}
"%string.
Example t330_ic : compileText true false vm2ic t330_src = text "vmNam(0)
vmEntry(1)
vmLdCns(0)
vmMReg()
vmRet()
".
Proof. vm_compute. reflexivity. Qed.
Example t330_vm : compileText true false vm2vm t330_src = text "_main
	ENTRY	1
	LDC	0
	MREG
	RET
".
Proof. vm_compute. reflexivity. Qed.
Example t330_tac : compileText true false vm2tac t330_src = text "_main	PUSH	FP
	LD	FP,SP
	PUSH	G3
	CALL	__stkChk
	LD	G0,#0
	POP	G3
	POP	FP
	RET
".
Proof. vm_compute. reflexivity. Qed.

Definition t340_src : list Z := codes "# 0 ""/repo/Test/c--/t340.cmm""
# 0 ""<built-in>""
# 0 ""<command-line>""
# 1 ""/repo/Test/c--/t340.cmm""




public int main() {
     while (1>2 && (2>3|| (3>4 && 4>5)));
     while (1>2 || (2>3&& (3>4 || 4>5)));
     while (1>2 && (2>3|| (3>4 && (4>5 || 5>6))));
     while (1>2 || (2>3&& (3>4 || (4>5 && 5>6))));

     do {} while (1>2 && (2>3|| (3>4 && 4>5)));
     do {} while (1>2 || (2>3&& (3>4 || 4>5)));
     do {} while (1>2 && (2>3|| (3>4 && (4>5 || 5>6))));
     do {} while (1>2 || (2>3&& (3>4 || (4>5 && 5>6))));

     return 0;
}
"%string.
Example t340_ic : compileText true false vm2ic t340_src = text "vmNam(0)
vmEntry(0)
vmLdCns(0)
vmMReg()
vmRet()
".
Proof. vm_compute. reflexivity. Qed.
Example t340_vm : compileText true false vm2vm t340_src = text "_main
	ENTRY	0
	LDC	0
	MREG
	RET
".
Proof. vm_compute. reflexivity. Qed.
Example t340_tac : compileText true false vm2tac t340_src = text "_main	PUSH	FP
	LD	FP,SP
	CALL	__stkChk
	LD	G0,#0
	POP	FP
	RET
".
Proof. vm_compute. reflexivity. Qed.

Definition t350_src : list Z := codes "# 0 ""/repo/Test/c--/t350.cmm""
# 0 ""<built-in>""
# 0 ""<command-line>""
# 1 ""/repo/Test/c--/t350.cmm""





boolean a,b;
public boolean f();

public int main() {
  boolean c = (a!=b) && (a==b) == f();

  return 0;
}
"%string.
Example t350_ic : compileText true false vm2ic t350_src = text "vmNam(0)
vmWs(1)
vmNam(1)
vmWs(1)
vmNam(3)
vmEntry(1)
vmLdGlb(0)
vmLdGlb(1)
vmNe()
vmJF(2)
vmCallF(0, 2)
vmLdGlb(0)
vmLdGlb(1)
vmEq()
vmEq()
vmBoolAND(2, -1, 1)
vmStLoc(1)
vmPop()
vmLdCns(0)
vmMReg()
vmRet()
".
Proof. vm_compute. reflexivity. Qed.
Example t350_vm : compileText true false vm2vm t350_src = text ".a
	WS	1
.b
	WS	1
_main
	ENTRY	1
	LDG	.a
	LDG	.b
	NE
	JF	.L2
	CALLF	0,_f
	LDG	.a
	LDG	.b
	EQ
	EQ
; BOOLAND .L2,.L-1,.L1
	JMP	.L1
.L2
	LDC	0
.L1
; ----
	STL	1
	POP
	LDC	0
	MREG
	RET
".
Proof. vm_compute. reflexivity. Qed.
Example t350_tac : compileText true false vm2tac t350_src = text ".a	WS	1
.b	WS	1
_main	PUSH	FP
	LD	FP,SP
	PUSH	G3
	CALL	__stkChk
	LD	G0,.a
	CMP	G0,.b
	JZ	.L2
	CALL	_f
	LD	G1,.a
	CMP	G1,.b
	LD	G1,#1
	JZ	.T0
	LD	G1,#0
.T0
	CMP	G0,G1
	LD	G0,#1
	JZ	.L1
.L2
	LD	G0,#0
.L1
	LD	G3,G0
	LD	G0,#0
	POP	G3
	POP	FP
	RET
".
Proof. vm_compute. reflexivity. Qed.

Definition t360_src : list Z := codes "# 0 ""/repo/Test/c--/t360.cmm""
# 0 ""<built-in>""
# 0 ""<command-line>""
# 1 ""/repo/Test/c--/t360.cmm""




public void[] __AddrAdd(void[] a, int i);

# 1 ""/repo/include/stdio.hmm"" 1
# 46 ""/repo/include/stdio.hmm""
struct FILE {
  int fd;
  int mode;
  char[] buf;
  int size;
  int len;
  int cnt;
  boolean tty;
  boolean eof;
  boolean err;
  int slot;
};

public void _stdioInit();
public void _flushAll();
public void _perror(char[] msg, int err);

struct Dir {
    char[] name;
    int attr;
    int clst;
    int lenH, lenL;
};
public int readDir(int fd, Dir dir);



public FILE stdin;
public FILE stdout;
public FILE stderr;

public boolean feof(FILE stream);
public boolean ferror(FILE stream);
public boolean fflush(FILE stream);
public boolean fseek(FILE stream, int h, int l);
public boolean fsize(char[] path, int[] size);

public FILE fopen(char[] name, char[] mode);
public boolean fclose(FILE stream);

public boolean fputc(char c, FILE stream);
public boolean putchar(char c);
public boolean fputs(char[] s, FILE stream);
public boolean puts(char[] s);

public char fgetc(FILE stream);
public char getchar();
public char[] fgets(char[] s, int n, FILE stream);
public void perror(char[] s);

public int fprintf(FILE stream, char[] format, ...);
public int printf(char[] format, ...);
# 8 ""/repo/Test/c--/t360.cmm"" 2


struct Reloc {
       int addr;
       int type_idx;
};

struct Symbol {
       int type_sidx;
       int val;
};


int relocateSegment(int[] relocTable, int tblSize,
      int[] symTable, int[] segment){

  for(int i = 0; i < tblSize; i = i + sizeof(Reloc)){
    Reloc reloc = __AddrAdd(relocTable, i);
    int index = (reloc.type_idx & 0x3fff) * sizeof(Symbol);
    Symbol symbol = __AddrAdd(symTable, index);
    segment[reloc.addr] = symbol.val;
    printf(""reloc: %04x -> %04x (%04x) | %04x\n"", reloc.addr, symbol.val,
    index, segment[reloc.addr]);
  }
  return 0;
}
"%string.
Example t360_ic : compileText true false vm2ic t360_src = text "vmNam(28)
vmWs(1)
vmNam(29)
vmWs(1)
vmNam(30)
vmWs(1)
vmLab(1)
vmStr(""reloc: %04x -> %04x (%04x) | %04x\n"")
vmNam(81)
vmEntry(4)
vmLdCns(0)
vmStLoc(1)
vmPop()
vmLab(2)
vmLdLoc(1)
vmLdPrm(2)
vmLt()
vmJF(3)
vmLdLoc(1)
vmArg()
vmLdPrm(1)
vmArg()
vmCallF(2, 0)
vmStLoc(2)
vmPop()
vmLdLoc(2)
vmLdCns(1)
vmLdWrd()
vmLdCns(16383)
vmBAnd()
vmLdCns(4)
vmMul()
vmStLoc(3)
vmPop()
vmLdLoc(3)
vmArg()
vmLdPrm(3)
vmArg()
vmCallF(2, 0)
vmStLoc(4)
vmPop()
vmLdLoc(4)
vmLdCns(1)
vmLdWrd()
vmLdPrm(4)
vmLdLoc(2)
vmLdCns(0)
vmLdWrd()
vmStWrd()
vmPop()
vmLdPrm(4)
vmLdLoc(2)
vmLdCns(0)
vmLdWrd()
vmLdWrd()
vmArg()
vmLdLoc(3)
vmArg()
vmLdLoc(4)
vmLdCns(1)
vmLdWrd()
vmArg()
vmLdLoc(2)
vmLdCns(0)
vmLdWrd()
vmArg()
vmLdLab(1)
vmArg()
vmCallF(5, 72)
vmPop()
vmLdLoc(1)
vmLdCns(4)
vmAdd()
vmStLoc(1)
vmPop()
vmJmp(2)
vmLab(3)
vmLdCns(0)
vmMReg()
vmRet()
".
Proof. vm_compute. reflexivity. Qed.
Example t360_vm : compileText true false vm2vm t360_src = text "_stdin
	WS	1
_stdout
	WS	1
_stderr
	WS	1
.L1
	STRING	""reloc: %04x -> %04x (%04x) | %04x\n""
.relocateSegment
	ENTRY	4
	LDC	0
	STL	1
	POP
.L2
	LDL	1
	LDP	2
	LT
	JF	.L3
	LDL	1
	ARG
	LDP	1
	ARG
	CALLF	2,___AddrAdd
	STL	2
	POP
	LDL	2
	LDC	1
	LDW
	LDC	16383
	BAND
	LDC	4
	MUL
	STL	3
	POP
	LDL	3
	ARG
	LDP	3
	ARG
	CALLF	2,___AddrAdd
	STL	4
	POP
	LDL	4
	LDC	1
	LDW
	LDP	4
	LDL	2
	LDC	0
	LDW
	STW
	POP
	LDP	4
	LDL	2
	LDC	0
	LDW
	LDW
	ARG
	LDL	3
	ARG
	LDL	4
	LDC	1
	LDW
	ARG
	LDL	2
	LDC	0
	LDW
	ARG
	LDC	.L1
	ARG
	CALLF	5,_printf
	POP
	LDL	1
	LDC	4
	ADD
	STL	1
	POP
	JMP	.L2
.L3
	LDC	0
	MREG
	RET
".
Proof. vm_compute. reflexivity. Qed.
Example t360_tac : compileText true false vm2tac t360_src = text "_stdin	WS	1
_stdout	WS	1
_stderr	WS	1
.L1	STRING	""reloc: %04x -> %04x (%04x) | %04x\n""
.relocateSegment	PUSH	FP
	LD	FP,SP
	PUSH	G3
	PUSH	G4
	PUSH	G5
	PUSH	G6
	CALL	__stkChk
	LD	G3,#0
.L2
	CMP	G3,6,FP
	JGE	.L3
	PUSH	G3
	LD	G0,4,FP
	PUSH	G0
	CALL	___AddrAdd
	ADD	SP,#4
	LD	G4,G0
	LD	G0,G4
	ADDS	G0,#1
	LD	G0,0,G0
	AND	G0,#16383
	SHLA	G0,#2
	LD	G5,G0
	PUSH	G5
	LD	G0,8,FP
	PUSH	G0
	CALL	___AddrAdd
	ADD	SP,#4
	LD	G6,G0
	LD	G0,G6
	ADDS	G0,#1
	LD	G1,10,FP
	ADDS	G1,0,G4
	LD	G0,0,G0
	ST	G0,0,G1
	LD	G0,10,FP
	ADDS	G0,0,G4
	LD	G0,0,G0
	PUSH	G0
	PUSH	G5
	LD	G0,G6
	ADDS	G0,#1
	LD	G0,0,G0
	PUSH	G0
	LD	G0,0,G4
	PUSH	G0
	LD	G0,#.L1
	PUSH	G0
	CALL	_printf
	ADD	SP,#10
	LD	G0,G3
	ADD	G0,#4
	LD	G3,G0
	JMP	.L2
.L3
	LD	G0,#0
	POP	G6
	POP	G5
	POP	G4
	POP	G3
	POP	FP
	RET
".
Proof. vm_compute. reflexivity. Qed.

Definition t370_src : list Z := codes "# 0 ""/repo/Test/c--/t370.cmm""
# 0 ""<built-in>""
# 0 ""<command-line>""
# 1 ""/repo/Test/c--/t370.cmm""




int a,c;
public int d();
public int e(int a, int b);
void f() {
     int b;
     b=(2+3*a+1)*(3+4)*(4+4);
     b=(2+3*a+1)*(3+4)*(4*4);
     b=3+a+4+5+6*(7+8);
     b=4/a/(2+2-(2-2));
     b=ord(4/a/(2+2-(2-2))>2/3/4);
     b=1+a+(d()*(1-1)*10*20)+2;
     b=ord(1+a>((b+4)+(c+6)));
     b=b+1+a-(3<<1);
     b=b+1+a-(3>>1);
     b=((1<<(16-1))|((1<<(16-1))-1));
     b=~0^((1<<(8-1))|((1<<(8-1))-1));
     b=((1<<15)+(1<<15))/2;
     b=b/20/a/5;
     b=b-20-a-5+25;
     b=b+20-10-(3-2);
     b=((1<<(8-1)|((1<<(8-1))-1)));
     b=b*2;
     b=2*b;
     b=b/2;
     b=b%2;

     b=b*1;
     b=1*b;
     b=b/1;
     b=b%1;

     boolean t;
     t=10>-1;
     t=(1>0) && t && (1>0);
     t=!(1>0) || t || !(1>0);

     e(1+a+2, 1*a*(1-1));
     while (1==0 || a<c) ;
     while (1==d()*(1-1)*10*20 || a<c) ;
# 53 ""/repo/Test/c--/t370.cmm""
     t = bool(a);


     for (char c=chr(0); c=='a'; c=chr(ord(c)-1)) ;
     for (boolean c=bool(0); c==true; c=bool(ord(c)-1)) ;
}
"%string.
Example t370_ic : compileText true false vm2ic t370_src = text "vmNam(0)
vmWs(1)
vmNam(1)
vmWs(1)
vmNam(6)
vmEntry(3)
vmLdCns(3)
vmLdGlb(0)
vmMul()
vmLdCns(3)
vmAdd()
vmLdCns(56)
vmMul()
vmStLoc(1)
vmPop()
vmLdCns(3)
vmLdGlb(0)
vmMul()
vmLdCns(3)
vmAdd()
vmLdCns(112)
vmMul()
vmStLoc(1)
vmPop()
vmLdCns(102)
vmLdGlb(0)
vmAdd()
vmStLoc(1)
vmPop()
vmLdCns(1)
vmLdGlb(0)
vmDiv()
vmStLoc(1)
vmPop()
vmLdCns(1)
vmLdGlb(0)
vmDiv()
vmLdCns(0)
vmGt()
vmStLoc(1)
vmPop()
vmLdCns(3)
vmLdGlb(0)
vmAdd()
vmStLoc(1)
vmPop()
vmLdCns(1)
vmLdGlb(0)
vmAdd()
vmLdLoc(1)
vmLdCns(10)
vmAdd()
vmLdGlb(1)
vmAdd()
vmGt()
vmStLoc(1)
vmPop()
vmLdLoc(1)
vmLdCns(65531)
vmAdd()
vmLdGlb(0)
vmAdd()
vmStLoc(1)
vmPop()
vmLdLoc(1)
vmLdGlb(0)
vmAdd()
vmStLoc(1)
vmPop()
vmLdCns(65535)
vmStLoc(1)
vmPop()
vmLdCns(65280)
vmStLoc(1)
vmPop()
vmLdCns(0)
vmStLoc(1)
vmPop()
vmLdLoc(1)
vmLdCns(100)
vmDiv()
vmLdGlb(0)
vmDiv()
vmStLoc(1)
vmPop()
vmLdLoc(1)
vmLdGlb(0)
vmSub()
vmStLoc(1)
vmPop()
vmLdLoc(1)
vmLdCns(9)
vmAdd()
vmStLoc(1)
vmPop()
vmLdCns(255)
vmStLoc(1)
vmPop()
vmLdLoc(1)
vmLdCns(2)
vmMul()
vmStLoc(1)
vmPop()
vmLdCns(2)
vmLdLoc(1)
vmMul()
vmStLoc(1)
vmPop()
vmLdLoc(1)
vmLdCns(2)
vmDiv()
vmStLoc(1)
vmPop()
vmLdLoc(1)
vmLdCns(2)
vmMod()
vmStLoc(1)
vmPop()
vmLdLoc(1)
vmStLoc(1)
vmPop()
vmLdLoc(1)
vmStLoc(1)
vmPop()
vmLdLoc(1)
vmStLoc(1)
vmPop()
vmLdCns(0)
vmStLoc(1)
vmPop()
vmLdCns(1)
vmStLoc(2)
vmPop()
vmLdLoc(2)
vmStLoc(2)
vmPop()
vmLdLoc(2)
vmStLoc(2)
vmPop()
vmLdCns(0)
vmArg()
vmLdCns(3)
vmLdGlb(0)
vmAdd()
vmArg()
vmCallF(2, 3)
vmPop()
vmLab(1)
vmLdGlb(0)
vmLdGlb(1)
vmLt()
vmJF(2)
vmJmp(1)
vmLab(2)
vmLab(3)
vmLdGlb(0)
vmLdGlb(1)
vmLt()
vmJF(4)
vmJmp(3)
vmLab(4)
vmLdGlb(0)
vmBool()
vmStLoc(2)
vmPop()
vmLdCns(0)
vmStLoc(3)
vmPop()
vmLab(5)
vmLdLoc(3)
vmLdCns(97)
vmEq()
vmJF(6)
vmLdLoc(3)
vmLdCns(65535)
vmAdd()
vmChr()
vmStLoc(3)
vmPop()
vmJmp(5)
vmLab(6)
vmLdCns(0)
vmStLoc(3)
vmPop()
vmLab(7)
vmLdLoc(3)
vmLdCns(1)
vmEq()
vmJF(8)
vmLdLoc(3)
vmLdCns(65535)
vmAdd()
vmBool()
vmStLoc(3)
vmPop()
vmJmp(7)
vmLab(8)
vmRet()
".
Proof. vm_compute. reflexivity. Qed.
Example t370_vm : compileText true false vm2vm t370_src = text ".a
	WS	1
.c
	WS	1
.f
	ENTRY	3
	LDC	3
	LDG	.a
	MUL
	LDC	3
	ADD
	LDC	56
	MUL
	STL	1
	POP
	LDC	3
	LDG	.a
	MUL
	LDC	3
	ADD
	LDC	112
	MUL
	STL	1
	POP
	LDC	102
	LDG	.a
	ADD
	STL	1
	POP
	LDC	1
	LDG	.a
	DIV
	STL	1
	POP
	LDC	1
	LDG	.a
	DIV
	LDC	0
	GT
	STL	1
	POP
	LDC	3
	LDG	.a
	ADD
	STL	1
	POP
	LDC	1
	LDG	.a
	ADD
	LDL	1
	LDC	10
	ADD
	LDG	.c
	ADD
	GT
	STL	1
	POP
	LDL	1
	LDC	65531
	ADD
	LDG	.a
	ADD
	STL	1
	POP
	LDL	1
	LDG	.a
	ADD
	STL	1
	POP
	LDC	65535
	STL	1
	POP
	LDC	65280
	STL	1
	POP
	LDC	0
	STL	1
	POP
	LDL	1
	LDC	100
	DIV
	LDG	.a
	DIV
	STL	1
	POP
	LDL	1
	LDG	.a
	SUB
	STL	1
	POP
	LDL	1
	LDC	9
	ADD
	STL	1
	POP
	LDC	255
	STL	1
	POP
	LDL	1
	LDC	2
	MUL
	STL	1
	POP
	LDC	2
	LDL	1
	MUL
	STL	1
	POP
	LDL	1
	LDC	2
	DIV
	STL	1
	POP
	LDL	1
	LDC	2
	MOD
	STL	1
	POP
	LDL	1
	STL	1
	POP
	LDL	1
	STL	1
	POP
	LDL	1
	STL	1
	POP
	LDC	0
	STL	1
	POP
	LDC	1
	STL	2
	POP
	LDL	2
	STL	2
	POP
	LDL	2
	STL	2
	POP
	LDC	0
	ARG
	LDC	3
	LDG	.a
	ADD
	ARG
	CALLF	2,_e
	POP
.L1
	LDG	.a
	LDG	.c
	LT
	JF	.L2
	JMP	.L1
.L2
.L3
	LDG	.a
	LDG	.c
	LT
	JF	.L4
	JMP	.L3
.L4
	LDG	.a
	BOOL
	STL	2
	POP
	LDC	0
	STL	3
	POP
.L5
	LDL	3
	LDC	97
	EQ
	JF	.L6
	LDL	3
	LDC	65535
	ADD
	CHR
	STL	3
	POP
	JMP	.L5
.L6
	LDC	0
	STL	3
	POP
.L7
	LDL	3
	LDC	1
	EQ
	JF	.L8
	LDL	3
	LDC	65535
	ADD
	BOOL
	STL	3
	POP
	JMP	.L7
.L8
	RET
".
Proof. vm_compute. reflexivity. Qed.
Example t370_tac : compileText true false vm2tac t370_src = text ".a	WS	1
.c	WS	1
.f	PUSH	FP
	LD	FP,SP
	PUSH	G3
	PUSH	G4
	PUSH	G5
	CALL	__stkChk
	LD	G0,#3
	MUL	G0,.a
	ADD	G0,#3
	MUL	G0,#56
	LD	G3,G0
	LD	G0,#3
	MUL	G0,.a
	ADD	G0,#3
	MUL	G0,#112
	LD	G3,G0
	LD	G0,#102
	ADD	G0,.a
	LD	G3,G0
	LD	G0,#1
	DIV	G0,.a
	LD	G3,G0
	LD	G0,#1
	DIV	G0,.a
	LD	G3,#1
	JGT	.T0
	LD	G3,#0
.T0
	LD	G0,#3
	ADD	G0,.a
	LD	G3,G0
	LD	G0,#1
	ADD	G0,.a
	LD	G1,G3
	ADD	G1,#10
	ADD	G1,.c
	CMP	G0,G1
	LD	G3,#1
	JGT	.T1
	LD	G3,#0
.T1
	LD	G0,G3
	ADD	G0,#65531
	ADD	G0,.a
	LD	G3,G0
	LD	G0,G3
	ADD	G0,.a
	LD	G3,G0
	LD	G3,#65535
	LD	G3,#65280
	LD	G3,#0
	LD	G0,G3
	DIV	G0,#100
	DIV	G0,.a
	LD	G3,G0
	LD	G0,G3
	SUB	G0,.a
	LD	G3,G0
	LD	G0,G3
	ADD	G0,#9
	LD	G3,G0
	LD	G3,#255
	LD	G0,G3
	SHLA	G0,#1
	LD	G3,G0
	LD	G0,G3
	SHLA	G0,#1
	LD	G3,G0
	LD	G0,G3
	SHRA	G0,#1
	LD	G3,G0
	LD	G0,G3
	AND	G0,#1
	LD	G3,G0
	LD	G3,#0
	LD	G4,#1
	LD	G0,#0
	PUSH	G0
	LD	G0,#3
	ADD	G0,.a
	PUSH	G0
	CALL	_e
	ADD	SP,#4
.L1
	LD	G0,.a
	CMP	G0,.c
	JGE	.L2
	JMP	.L1
.L2
.L3
	LD	G0,.a
	CMP	G0,.c
	JGE	.L4
	JMP	.L3
.L4
	LD	G0,.a
	AND	G0,#1
	LD	G4,G0
	LD	G5,#0
.L5
	CMP	G5,#97
	JNZ	.L6
	LD	G0,G5
	ADD	G0,#65535
	AND	G0,#255
	LD	G5,G0
	JMP	.L5
.L6
	LD	G5,#0
.L7
	CMP	G5,#1
	JNZ	.L8
	LD	G0,G5
	ADD	G0,#65535
	AND	G0,#1
	LD	G5,G0
	JMP	.L7
.L8
	POP	G5
	POP	G4
	POP	G3
	POP	FP
	RET
".
Proof. vm_compute. reflexivity. Qed.

Definition t380_src : list Z := codes "# 0 ""/repo/Test/c--/t380.cmm""
# 0 ""<built-in>""
# 0 ""<command-line>""
# 1 ""/repo/Test/c--/t380.cmm""




int a,b,c,d,e;
boolean s,t,u,v,w;

void f() {
  if (((a>b)==(b>c)) && c>d || a>b && b>c) {
   a=1;
  } else {
   a=2;
  }
  v = ((a>b)==(b>c)) && c>d || a>b && b>c;

  if ((s==t) && a+b>=0 || u && v) {
   a=3;
  } else {
   a=4;
  }

  a = (a+b+c+d+e+a*b+b*c+c*d*e)*ord(((s==t) && a+b>=0 || u && v) &&
    (s==t) && a+b>=0 || u && v);
}
"%string.
Example t380_ic : compileText true false vm2ic t380_src = text "vmNam(0)
vmWs(1)
vmNam(1)
vmWs(1)
vmNam(2)
vmWs(1)
vmNam(3)
vmWs(1)
vmNam(4)
vmWs(1)
vmNam(5)
vmWs(1)
vmNam(6)
vmWs(1)
vmNam(7)
vmWs(1)
vmNam(8)
vmWs(1)
vmNam(9)
vmWs(1)
vmNam(10)
vmEntry(0)
vmLdGlb(0)
vmLdGlb(1)
vmGt()
vmLdGlb(1)
vmLdGlb(2)
vmGt()
vmEq()
vmJF(1)
vmLdGlb(2)
vmLdGlb(3)
vmGt()
vmJT(2)
vmLab(1)
vmLdGlb(0)
vmLdGlb(1)
vmGt()
vmJF(3)
vmLdGlb(1)
vmLdGlb(2)
vmGt()
vmJF(3)
vmLab(2)
vmLdCns(1)
vmStGlb(0)
vmPop()
vmJmp(4)
vmLab(3)
vmLdCns(2)
vmStGlb(0)
vmPop()
vmLab(4)
vmLdGlb(0)
vmLdGlb(1)
vmGt()
vmLdGlb(1)
vmLdGlb(2)
vmGt()
vmEq()
vmJF(6)
vmLdGlb(2)
vmLdGlb(3)
vmGt()
vmJT(7)
vmLab(6)
vmLdGlb(0)
vmLdGlb(1)
vmGt()
vmJF(8)
vmLdGlb(1)
vmLdGlb(2)
vmGt()
vmBoolOR(7, 8, 5)
vmStGlb(8)
vmPop()
vmLdGlb(5)
vmLdGlb(6)
vmEq()
vmJF(9)
vmLdGlb(0)
vmLdGlb(1)
vmAdd()
vmLdCns(0)
vmGe()
vmJT(10)
vmLab(9)
vmLdGlb(7)
vmJF(11)
vmLdGlb(8)
vmJF(11)
vmLab(10)
vmLdCns(3)
vmStGlb(0)
vmPop()
vmJmp(12)
vmLab(11)
vmLdCns(4)
vmStGlb(0)
vmPop()
vmLab(12)
vmLdGlb(0)
vmLdGlb(1)
vmAdd()
vmLdGlb(2)
vmAdd()
vmLdGlb(3)
vmAdd()
vmLdGlb(4)
vmAdd()
vmLdGlb(0)
vmLdGlb(1)
vmMul()
vmAdd()
vmLdGlb(1)
vmLdGlb(2)
vmMul()
vmAdd()
vmLdGlb(2)
vmLdGlb(3)
vmMul()
vmLdGlb(4)
vmMul()
vmAdd()
vmLdGlb(5)
vmLdGlb(6)
vmEq()
vmJF(14)
vmLdGlb(0)
vmLdGlb(1)
vmAdd()
vmLdCns(0)
vmGe()
vmJT(15)
vmLab(14)
vmLdGlb(7)
vmJF(16)
vmLdGlb(8)
vmJF(16)
vmLab(15)
vmLdGlb(5)
vmLdGlb(6)
vmEq()
vmJF(16)
vmLdGlb(0)
vmLdGlb(1)
vmAdd()
vmLdCns(0)
vmGe()
vmJT(17)
vmLab(16)
vmLdGlb(7)
vmJF(18)
vmLdGlb(8)
vmBoolOR(17, 18, 13)
vmMul()
vmStGlb(0)
vmPop()
vmRet()
".
Proof. vm_compute. reflexivity. Qed.
Example t380_vm : compileText true false vm2vm t380_src = text ".a
	WS	1
.b
	WS	1
.c
	WS	1
.d
	WS	1
.e
	WS	1
.s
	WS	1
.t
	WS	1
.u
	WS	1
.v
	WS	1
.w
	WS	1
.f
	ENTRY	0
	LDG	.a
	LDG	.b
	GT
	LDG	.b
	LDG	.c
	GT
	EQ
	JF	.L1
	LDG	.c
	LDG	.d
	GT
	JT	.L2
.L1
	LDG	.a
	LDG	.b
	GT
	JF	.L3
	LDG	.b
	LDG	.c
	GT
	JF	.L3
.L2
	LDC	1
	STG	.a
	POP
	JMP	.L4
.L3
	LDC	2
	STG	.a
	POP
.L4
	LDG	.a
	LDG	.b
	GT
	LDG	.b
	LDG	.c
	GT
	EQ
	JF	.L6
	LDG	.c
	LDG	.d
	GT
	JT	.L7
.L6
	LDG	.a
	LDG	.b
	GT
	JF	.L8
	LDG	.b
	LDG	.c
	GT
; BOOLOR .L7,.L8,.L5
	JMP	.L5
.L7
	LDC	1
	JMP	.L5
.L8
	LDC	0
.L5
; ----
	STG	.v
	POP
	LDG	.s
	LDG	.t
	EQ
	JF	.L9
	LDG	.a
	LDG	.b
	ADD
	LDC	0
	GE
	JT	.L10
.L9
	LDG	.u
	JF	.L11
	LDG	.v
	JF	.L11
.L10
	LDC	3
	STG	.a
	POP
	JMP	.L12
.L11
	LDC	4
	STG	.a
	POP
.L12
	LDG	.a
	LDG	.b
	ADD
	LDG	.c
	ADD
	LDG	.d
	ADD
	LDG	.e
	ADD
	LDG	.a
	LDG	.b
	MUL
	ADD
	LDG	.b
	LDG	.c
	MUL
	ADD
	LDG	.c
	LDG	.d
	MUL
	LDG	.e
	MUL
	ADD
	LDG	.s
	LDG	.t
	EQ
	JF	.L14
	LDG	.a
	LDG	.b
	ADD
	LDC	0
	GE
	JT	.L15
.L14
	LDG	.u
	JF	.L16
	LDG	.v
	JF	.L16
.L15
	LDG	.s
	LDG	.t
	EQ
	JF	.L16
	LDG	.a
	LDG	.b
	ADD
	LDC	0
	GE
	JT	.L17
.L16
	LDG	.u
	JF	.L18
	LDG	.v
; BOOLOR .L17,.L18,.L13
	JMP	.L13
.L17
	LDC	1
	JMP	.L13
.L18
	LDC	0
.L13
; ----
	MUL
	STG	.a
	POP
	RET
".
Proof. vm_compute. reflexivity. Qed.
Example t380_tac : compileText true false vm2tac t380_src = text ".a	WS	1
.b	WS	1
.c	WS	1
.d	WS	1
.e	WS	1
.s	WS	1
.t	WS	1
.u	WS	1
.v	WS	1
.w	WS	1
.f	PUSH	FP
	LD	FP,SP
	CALL	__stkChk
	LD	G0,.a
	CMP	G0,.b
	LD	G0,#1
	JGT	.T0
	LD	G0,#0
.T0
	LD	G1,.b
	CMP	G1,.c
	LD	G1,#1
	JGT	.T1
	LD	G1,#0
.T1
	CMP	G0,G1
	JNZ	.L1
	LD	G0,.c
	CMP	G0,.d
	JGT	.L2
.L1
	LD	G0,.a
	CMP	G0,.b
	JLE	.L3
	LD	G0,.b
	CMP	G0,.c
	JLE	.L3
.L2
	LD	G0,#1
	ST	G0,.a
	JMP	.L4
.L3
	LD	G0,#2
	ST	G0,.a
.L4
	LD	G0,.a
	CMP	G0,.b
	LD	G0,#1
	JGT	.T2
	LD	G0,#0
.T2
	LD	G1,.b
	CMP	G1,.c
	LD	G1,#1
	JGT	.T3
	LD	G1,#0
.T3
	CMP	G0,G1
	JNZ	.L6
	LD	G0,.c
	CMP	G0,.d
	JGT	.L7
.L6
	LD	G0,.a
	CMP	G0,.b
	JLE	.L8
	LD	G0,.b
	CMP	G0,.c
	JLE	.L8
.L7
	LD	G0,#1
	JMP	.L5
.L8
	LD	G0,#0
.L5
	ST	G0,.v
	LD	G0,.s
	CMP	G0,.t
	JNZ	.L9
	LD	G0,.a
	ADD	G0,.b
	JGE	.L10
.L9
	LD	G0,.u
	CMP	G0,#0
	JZ	.L11
	LD	G0,.v
	CMP	G0,#0
	JZ	.L11
.L10
	LD	G0,#3
	ST	G0,.a
	JMP	.L12
.L11
	LD	G0,#4
	ST	G0,.a
.L12
	LD	G0,.a
	ADD	G0,.b
	ADD	G0,.c
	ADD	G0,.d
	ADD	G0,.e
	LD	G1,.a
	MUL	G1,.b
	ADD	G0,G1
	LD	G1,.b
	MUL	G1,.c
	ADD	G0,G1
	LD	G1,.c
	MUL	G1,.d
	MUL	G1,.e
	ADD	G0,G1
	LD	G1,.s
	CMP	G1,.t
	JNZ	.L14
	LD	G1,.a
	ADD	G1,.b
	JGE	.L15
.L14
	LD	G1,.u
	CMP	G1,#0
	JZ	.L16
	LD	G1,.v
	CMP	G1,#0
	JZ	.L16
.L15
	LD	G1,.s
	CMP	G1,.t
	JNZ	.L16
	LD	G1,.a
	ADD	G1,.b
	JGE	.L17
.L16
	LD	G1,.u
	CMP	G1,#0
	JZ	.L18
	LD	G1,.v
	JMP	.L13
.L17
	LD	G1,#1
	JMP	.L13
.L18
	LD	G1,#0
.L13
	MUL	G0,G1
	ST	G0,.a
	POP	FP
	RET
".
Proof. vm_compute. reflexivity. Qed.

Definition t390_src : list Z := codes "# 0 ""/repo/Test/c--/t390.cmm""
# 0 ""<built-in>""
# 0 ""<command-line>""
# 1 ""/repo/Test/c--/t390.cmm""




char[][]a;
int[] c;
int e;

public char x();
public int y();

public int main() {
 a[2+1][c[4]+5+c[6]+y()+e]=x();
 return 0;
}
"%string.
Example t390_ic : compileText true false vm2ic t390_src = text "vmNam(0)
vmWs(1)
vmNam(1)
vmWs(1)
vmNam(2)
vmWs(1)
vmNam(5)
vmEntry(0)
vmCallF(0, 3)
vmLdGlb(0)
vmLdCns(3)
vmLdWrd()
vmCallF(0, 4)
vmLdGlb(1)
vmLdCns(4)
vmLdWrd()
vmLdCns(5)
vmAdd()
vmLdGlb(1)
vmLdCns(6)
vmLdWrd()
vmAdd()
vmAdd()
vmLdGlb(2)
vmAdd()
vmStByt()
vmPop()
vmLdCns(0)
vmMReg()
vmRet()
".
Proof. vm_compute. reflexivity. Qed.
Example t390_vm : compileText true false vm2vm t390_src = text ".a
	WS	1
.c
	WS	1
.e
	WS	1
_main
	ENTRY	0
	CALLF	0,_x
	LDG	.a
	LDC	3
	LDW
	CALLF	0,_y
	LDG	.c
	LDC	4
	LDW
	LDC	5
	ADD
	LDG	.c
	LDC	6
	LDW
	ADD
	ADD
	LDG	.e
	ADD
	STB
	POP
	LDC	0
	MREG
	RET
".
Proof. vm_compute. reflexivity. Qed.
Example t390_tac : compileText true false vm2tac t390_src = text ".a	WS	1
.c	WS	1
.e	WS	1
_main	PUSH	FP
	LD	FP,SP
	CALL	__stkChk
	CALL	_x
	LD	G1,.a
	ADDS	G1,#3
	PUSH	G0
	LD	G1,0,G1
	PUSH	G1
	CALL	_y
	LD	G1,.c
	ADDS	G1,#4
	LD	G1,0,G1
	ADD	G1,#5
	LD	G2,.c
	ADDS	G2,#6
	ADD	G1,0,G2
	ADD	G0,G1
	ADD	G0,.e
	POP	G1
	ADD	G1,G0
	POP	G0
	ST	G0,@G1
	LD	G0,#0
	POP	FP
	RET
".
Proof. vm_compute. reflexivity. Qed.

Definition t400_src : list Z := codes "# 0 ""/repo/Test/c--/t400.cmm""
# 0 ""<built-in>""
# 0 ""<command-line>""
# 1 ""/repo/Test/c--/t400.cmm""




public int main() {
  int a,b,c,d,e,f,g,h,i,j,k;
  a = 1;
  b = 2;
  c = 3;
  d = 4;
  e = 5;
  f = 6;
  g = 7;
  h = 8;
  i = 9;
  j = 10;
  k = 11;

  return 0;
}
"%string.
Example t400_ic : compileText true false vm2ic t400_src = text "vmNam(0)
vmEntry(11)
vmLdCns(1)
vmStLoc(1)
vmPop()
vmLdCns(2)
vmStLoc(2)
vmPop()
vmLdCns(3)
vmStLoc(3)
vmPop()
vmLdCns(4)
vmStLoc(4)
vmPop()
vmLdCns(5)
vmStLoc(5)
vmPop()
vmLdCns(6)
vmStLoc(6)
vmPop()
vmLdCns(7)
vmStLoc(7)
vmPop()
vmLdCns(8)
vmStLoc(8)
vmPop()
vmLdCns(9)
vmStLoc(9)
vmPop()
vmLdCns(10)
vmStLoc(10)
vmPop()
vmLdCns(11)
vmStLoc(11)
vmPop()
vmLdCns(0)
vmMReg()
vmRet()
".
Proof. vm_compute. reflexivity. Qed.
Example t400_vm : compileText true false vm2vm t400_src = text "_main
	ENTRY	11
	LDC	1
	STL	1
	POP
	LDC	2
	STL	2
	POP
	LDC	3
	STL	3
	POP
	LDC	4
	STL	4
	POP
	LDC	5
	STL	5
	POP
	LDC	6
	STL	6
	POP
	LDC	7
	STL	7
	POP
	LDC	8
	STL	8
	POP
	LDC	9
	STL	9
	POP
	LDC	10
	STL	10
	POP
	LDC	11
	STL	11
	POP
	LDC	0
	MREG
	RET
".
Proof. vm_compute. reflexivity. Qed.
Example t400_tac : compileText true false vm2tac t400_src = text "_main	PUSH	FP
	LD	FP,SP
	SUB	SP,#4
	PUSH	G3
	PUSH	G4
	PUSH	G5
	PUSH	G6
	PUSH	G7
	PUSH	G8
	PUSH	G9
	PUSH	G10
	PUSH	G11
	CALL	__stkChk
	LD	G3,#1
	LD	G4,#2
	LD	G5,#3
	LD	G6,#4
	LD	G7,#5
	LD	G8,#6
	LD	G9,#7
	LD	G10,#8
	LD	G11,#9
	LD	G0,#10
	ST	G0,-2,FP
	LD	G0,#11
	ST	G0,-4,FP
	LD	G0,#0
	POP	G11
	POP	G10
	POP	G9
	POP	G8
	POP	G7
	POP	G6
	POP	G5
	POP	G4
	POP	G3
	LD	SP,FP
	POP	FP
	RET
".
Proof. vm_compute. reflexivity. Qed.

Definition t500_src : list Z := codes "# 0 ""/repo/Test/c--/t500.cmm""
# 0 ""<built-in>""
# 0 ""<command-line>""
# 1 ""/repo/Test/c--/t500.cmm""

# 1 ""/repo/include/stdio.hmm"" 1
# 46 ""/repo/include/stdio.hmm""
struct FILE {
  int fd;
  int mode;
  char[] buf;
  int size;
  int len;
  int cnt;
  boolean tty;
  boolean eof;
  boolean err;
  int slot;
};

public void _stdioInit();
public void _flushAll();
public void _perror(char[] msg, int err);

struct Dir {
    char[] name;
    int attr;
    int clst;
    int lenH, lenL;
};
public int readDir(int fd, Dir dir);



public FILE stdin;
public FILE stdout;
public FILE stderr;

public boolean feof(FILE stream);
public boolean ferror(FILE stream);
public boolean fflush(FILE stream);
public boolean fseek(FILE stream, int h, int l);
public boolean fsize(char[] path, int[] size);

public FILE fopen(char[] name, char[] mode);
public boolean fclose(FILE stream);

public boolean fputc(char c, FILE stream);
public boolean putchar(char c);
public boolean fputs(char[] s, FILE stream);
public boolean puts(char[] s);

public char fgetc(FILE stream);
public char getchar();
public char[] fgets(char[] s, int n, FILE stream);
public void perror(char[] s);

public int fprintf(FILE stream, char[] format, ...);
public int printf(char[] format, ...);
# 3 ""/repo/Test/c--/t500.cmm"" 2



public FILE g(FILE f);

FILE h(FILE f) {
  return g(f);
}

public void f() {
  FILE f,p = fopen(""aaa.txt"", ""r"");
  f = p;
  f = h(p);
}
"%string.
Example t500_ic : compileText true false vm2ic t500_src = text "vmNam(25)
vmWs(1)
vmNam(26)
vmWs(1)
vmNam(27)
vmWs(1)
vmNam(74)
vmEntry(0)
vmLdPrm(1)
vmArg()
vmCallF(1, 72)
vmMReg()
vmRet()
vmLab(1)
vmStr(""aaa.txt"")
vmLab(2)
vmStr(""r"")
vmNam(76)
vmEntry(2)
vmLdLab(2)
vmArg()
vmLdLab(1)
vmArg()
vmCallF(2, 41)
vmStLoc(2)
vmPop()
vmLdLoc(2)
vmStLoc(1)
vmPop()
vmLdLoc(2)
vmArg()
vmCallF(1, 74)
vmStLoc(1)
vmPop()
vmRet()
".
Proof. vm_compute. reflexivity. Qed.
Example t500_vm : compileText true false vm2vm t500_src = text "_stdin
	WS	1
_stdout
	WS	1
_stderr
	WS	1
.h
	ENTRY	0
	LDP	1
	ARG
	CALLF	1,_g
	MREG
	RET
.L1
	STRING	""aaa.txt""
.L2
	STRING	""r""
_f
	ENTRY	2
	LDC	.L2
	ARG
	LDC	.L1
	ARG
	CALLF	2,_fopen
	STL	2
	POP
	LDL	2
	STL	1
	POP
	LDL	2
	ARG
	CALLF	1,.h
	STL	1
	POP
	RET
".
Proof. vm_compute. reflexivity. Qed.
Example t500_tac : compileText true false vm2tac t500_src = text "_stdin	WS	1
_stdout	WS	1
_stderr	WS	1
.h	PUSH	FP
	LD	FP,SP
	CALL	__stkChk
	LD	G0,4,FP
	PUSH	G0
	CALL	_g
	ADD	SP,#2
	POP	FP
	RET
.L1	STRING	""aaa.txt""
.L2	STRING	""r""
_f	PUSH	FP
	LD	FP,SP
	PUSH	G3
	PUSH	G4
	CALL	__stkChk
	LD	G0,#.L2
	PUSH	G0
	LD	G0,#.L1
	PUSH	G0
	CALL	_fopen
	ADD	SP,#4
	LD	G4,G0
	LD	G3,G4
	PUSH	G4
	CALL	.h
	ADD	SP,#2
	LD	G3,G0
	POP	G4
	POP	G3
	POP	FP
	RET
".
Proof. vm_compute. reflexivity. Qed.

Definition t600_src : list Z := codes "# 0 ""/repo/Test/c--/t600.cmm""
# 0 ""<built-in>""
# 0 ""<command-line>""
# 1 ""/repo/Test/c--/t600.cmm""



# 1 ""/repo/include/stdio.hmm"" 1
# 46 ""/repo/include/stdio.hmm""
struct FILE {
  int fd;
  int mode;
  char[] buf;
  int size;
  int len;
  int cnt;
  boolean tty;
  boolean eof;
  boolean err;
  int slot;
};

public void _stdioInit();
public void _flushAll();
public void _perror(char[] msg, int err);

struct Dir {
    char[] name;
    int attr;
    int clst;
    int lenH, lenL;
};
public int readDir(int fd, Dir dir);



public FILE stdin;
public FILE stdout;
public FILE stderr;

public boolean feof(FILE stream);
public boolean ferror(FILE stream);
public boolean fflush(FILE stream);
public boolean fseek(FILE stream, int h, int l);
public boolean fsize(char[] path, int[] size);

public FILE fopen(char[] name, char[] mode);
public boolean fclose(FILE stream);

public boolean fputc(char c, FILE stream);
public boolean putchar(char c);
public boolean fputs(char[] s, FILE stream);
public boolean puts(char[] s);

public char fgetc(FILE stream);
public char getchar();
public char[] fgets(char[] s, int n, FILE stream);
public void perror(char[] s);

public int fprintf(FILE stream, char[] format, ...);
public int printf(char[] format, ...);
# 5 ""/repo/Test/c--/t600.cmm"" 2

public int main() {
  int a = ord('\377');
  int b = ord('\377')+1;
  char c = '\377';
  int d = ord(c);
  char[] e = ""\377\376"";
  int f = ord(e[1]);

  printf(""a=%04x(00ff)\n"", a);
  printf(""b=%04x(0100)\n"", b);
  printf(""c=%04x(00ff)\n"", ord(c));
  printf(""d=%04x(00ff)\n"", d);
  printf(""e[1]=%04x(00fe)\n"", e[1]);
  printf(""f=%04x(00fe)\n"", f);

  return 0;
}
"%string.
Example t600_ic : compileText true false vm2ic t600_src = text "vmNam(25)
vmWs(1)
vmNam(26)
vmWs(1)
vmNam(27)
vmWs(1)
vmLab(1)
vmStr(""\377\376"")
vmLab(2)
vmStr(""a=%04x(00ff)\n"")
vmLab(3)
vmStr(""b=%04x(0100)\n"")
vmLab(4)
vmStr(""c=%04x(00ff)\n"")
vmLab(5)
vmStr(""d=%04x(00ff)\n"")
vmLab(6)
vmStr(""e[1]=%04x(00fe)\n"")
vmLab(7)
vmStr(""f=%04x(00fe)\n"")
vmNam(72)
vmEntry(6)
vmLdCns(255)
vmStLoc(1)
vmPop()
vmLdCns(256)
vmStLoc(2)
vmPop()
vmLdCns(255)
vmStLoc(3)
vmPop()
vmLdLoc(3)
vmStLoc(4)
vmPop()
vmLdLab(1)
vmStLoc(5)
vmPop()
vmLdLoc(5)
vmLdCns(1)
vmLdByt()
vmStLoc(6)
vmPop()
vmLdLoc(1)
vmArg()
vmLdLab(2)
vmArg()
vmCallF(2, 69)
vmPop()
vmLdLoc(2)
vmArg()
vmLdLab(3)
vmArg()
vmCallF(2, 69)
vmPop()
vmLdLoc(3)
vmArg()
vmLdLab(4)
vmArg()
vmCallF(2, 69)
vmPop()
vmLdLoc(4)
vmArg()
vmLdLab(5)
vmArg()
vmCallF(2, 69)
vmPop()
vmLdLoc(5)
vmLdCns(1)
vmLdByt()
vmArg()
vmLdLab(6)
vmArg()
vmCallF(2, 69)
vmPop()
vmLdLoc(6)
vmArg()
vmLdLab(7)
vmArg()
vmCallF(2, 69)
vmPop()
vmLdCns(0)
vmMReg()
vmRet()
".
Proof. vm_compute. reflexivity. Qed.
Example t600_vm : compileText true false vm2vm t600_src = text "_stdin
	WS	1
_stdout
	WS	1
_stderr
	WS	1
.L1
	STRING	""\377\376""
.L2
	STRING	""a=%04x(00ff)\n""
.L3
	STRING	""b=%04x(0100)\n""
.L4
	STRING	""c=%04x(00ff)\n""
.L5
	STRING	""d=%04x(00ff)\n""
.L6
	STRING	""e[1]=%04x(00fe)\n""
.L7
	STRING	""f=%04x(00fe)\n""
_main
	ENTRY	6
	LDC	255
	STL	1
	POP
	LDC	256
	STL	2
	POP
	LDC	255
	STL	3
	POP
	LDL	3
	STL	4
	POP
	LDC	.L1
	STL	5
	POP
	LDL	5
	LDC	1
	LDB
	STL	6
	POP
	LDL	1
	ARG
	LDC	.L2
	ARG
	CALLF	2,_printf
	POP
	LDL	2
	ARG
	LDC	.L3
	ARG
	CALLF	2,_printf
	POP
	LDL	3
	ARG
	LDC	.L4
	ARG
	CALLF	2,_printf
	POP
	LDL	4
	ARG
	LDC	.L5
	ARG
	CALLF	2,_printf
	POP
	LDL	5
	LDC	1
	LDB
	ARG
	LDC	.L6
	ARG
	CALLF	2,_printf
	POP
	LDL	6
	ARG
	LDC	.L7
	ARG
	CALLF	2,_printf
	POP
	LDC	0
	MREG
	RET
".
Proof. vm_compute. reflexivity. Qed.
Example t600_tac : compileText true false vm2tac t600_src = text "_stdin	WS	1
_stdout	WS	1
_stderr	WS	1
.L1	STRING	""\377\376""
.L2	STRING	""a=%04x(00ff)\n""
.L3	STRING	""b=%04x(0100)\n""
.L4	STRING	""c=%04x(00ff)\n""
.L5	STRING	""d=%04x(00ff)\n""
.L6	STRING	""e[1]=%04x(00fe)\n""
.L7	STRING	""f=%04x(00fe)\n""
_main	PUSH	FP
	LD	FP,SP
	PUSH	G3
	PUSH	G4
	PUSH	G5
	PUSH	G6
	PUSH	G7
	PUSH	G8
	CALL	__stkChk
	LD	G3,#255
	LD	G4,#256
	LD	G5,#255
	LD	G6,G5
	LD	G7,#.L1
	LD	G0,G7
	ADD	G0,#1
	LD	G8,@G0
	PUSH	G3
	LD	G0,#.L2
	PUSH	G0
	CALL	_printf
	ADD	SP,#4
	PUSH	G4
	LD	G0,#.L3
	PUSH	G0
	CALL	_printf
	ADD	SP,#4
	PUSH	G5
	LD	G0,#.L4
	PUSH	G0
	CALL	_printf
	ADD	SP,#4
	PUSH	G6
	LD	G0,#.L5
	PUSH	G0
	CALL	_printf
	ADD	SP,#4
	LD	G0,G7
	ADD	G0,#1
	LD	G0,@G0
	PUSH	G0
	LD	G0,#.L6
	PUSH	G0
	CALL	_printf
	ADD	SP,#4
	PUSH	G8
	LD	G0,#.L7
	PUSH	G0
	CALL	_printf
	ADD	SP,#4
	LD	G0,#0
	POP	G8
	POP	G7
	POP	G6
	POP	G5
	POP	G4
	POP	G3
	POP	FP
	RET
".
Proof. vm_compute. reflexivity. Qed.

Definition t700_src : list Z := codes "# 0 ""/repo/Test/c--/t700.cmm""
# 0 ""<built-in>""
# 0 ""<command-line>""
# 1 ""/repo/Test/c--/t700.cmm""




int a;

void f() {
  if (a>1) if (a>7) a=3; else a=5; else a=6;
  if (a>2) if (a>8) a=3; else a=5;
  if (a>3){if (a>9) a=3;}else a=5;
  if (a>4){if (a>10) a=3; else if (a>11) a=4;} else a=5;
  if (a>5) ; else ;
  if (a>6) {} else {}
}
"%string.
Example t700_ic : compileText true false vm2ic t700_src = text "vmNam(0)
vmWs(1)
vmNam(1)
vmEntry(0)
vmLdGlb(0)
vmLdCns(1)
vmGt()
vmJF(1)
vmLdGlb(0)
vmLdCns(7)
vmGt()
vmJF(2)
vmLdCns(3)
vmStGlb(0)
vmPop()
vmJmp(3)
vmLab(2)
vmLdCns(5)
vmStGlb(0)
vmPop()
vmLab(3)
vmJmp(4)
vmLab(1)
vmLdCns(6)
vmStGlb(0)
vmPop()
vmLab(4)
vmLdGlb(0)
vmLdCns(2)
vmGt()
vmJF(5)
vmLdGlb(0)
vmLdCns(8)
vmGt()
vmJF(6)
vmLdCns(3)
vmStGlb(0)
vmPop()
vmJmp(7)
vmLab(6)
vmLdCns(5)
vmStGlb(0)
vmPop()
vmLab(7)
vmLab(5)
vmLdGlb(0)
vmLdCns(3)
vmGt()
vmJF(8)
vmLdGlb(0)
vmLdCns(9)
vmGt()
vmJF(9)
vmLdCns(3)
vmStGlb(0)
vmPop()
vmLab(9)
vmJmp(10)
vmLab(8)
vmLdCns(5)
vmStGlb(0)
vmPop()
vmLab(10)
vmLdGlb(0)
vmLdCns(4)
vmGt()
vmJF(11)
vmLdGlb(0)
vmLdCns(10)
vmGt()
vmJF(12)
vmLdCns(3)
vmStGlb(0)
vmPop()
vmJmp(13)
vmLab(12)
vmLdGlb(0)
vmLdCns(11)
vmGt()
vmJF(14)
vmLdCns(4)
vmStGlb(0)
vmPop()
vmLab(14)
vmLab(13)
vmJmp(15)
vmLab(11)
vmLdCns(5)
vmStGlb(0)
vmPop()
vmLab(15)
vmLdGlb(0)
vmLdCns(5)
vmGt()
vmJF(16)
vmJmp(17)
vmLab(16)
vmLab(17)
vmLdGlb(0)
vmLdCns(6)
vmGt()
vmJF(18)
vmJmp(19)
vmLab(18)
vmLab(19)
vmRet()
".
Proof. vm_compute. reflexivity. Qed.
Example t700_vm : compileText true false vm2vm t700_src = text ".a
	WS	1
.f
	ENTRY	0
	LDG	.a
	LDC	1
	GT
	JF	.L1
	LDG	.a
	LDC	7
	GT
	JF	.L2
	LDC	3
	STG	.a
	POP
	JMP	.L3
.L2
	LDC	5
	STG	.a
	POP
.L3
	JMP	.L4
.L1
	LDC	6
	STG	.a
	POP
.L4
	LDG	.a
	LDC	2
	GT
	JF	.L5
	LDG	.a
	LDC	8
	GT
	JF	.L6
	LDC	3
	STG	.a
	POP
	JMP	.L7
.L6
	LDC	5
	STG	.a
	POP
.L7
.L5
	LDG	.a
	LDC	3
	GT
	JF	.L8
	LDG	.a
	LDC	9
	GT
	JF	.L9
	LDC	3
	STG	.a
	POP
.L9
	JMP	.L10
.L8
	LDC	5
	STG	.a
	POP
.L10
	LDG	.a
	LDC	4
	GT
	JF	.L11
	LDG	.a
	LDC	10
	GT
	JF	.L12
	LDC	3
	STG	.a
	POP
	JMP	.L13
.L12
	LDG	.a
	LDC	11
	GT
	JF	.L14
	LDC	4
	STG	.a
	POP
.L14
.L13
	JMP	.L15
.L11
	LDC	5
	STG	.a
	POP
.L15
	LDG	.a
	LDC	5
	GT
	JF	.L16
	JMP	.L17
.L16
.L17
	LDG	.a
	LDC	6
	GT
	JF	.L18
	JMP	.L19
.L18
.L19
	RET
".
Proof. vm_compute. reflexivity. Qed.
Example t700_tac : compileText true false vm2tac t700_src = text ".a	WS	1
.f	PUSH	FP
	LD	FP,SP
	CALL	__stkChk
	LD	G0,.a
	CMP	G0,#1
	JLE	.L1
	LD	G0,.a
	CMP	G0,#7
	JLE	.L2
	LD	G0,#3
	ST	G0,.a
	JMP	.L3
.L2
	LD	G0,#5
	ST	G0,.a
.L3
	JMP	.L4
.L1
	LD	G0,#6
	ST	G0,.a
.L4
	LD	G0,.a
	CMP	G0,#2
	JLE	.L5
	LD	G0,.a
	CMP	G0,#8
	JLE	.L6
	LD	G0,#3
	ST	G0,.a
	JMP	.L7
.L6
	LD	G0,#5
	ST	G0,.a
.L7
.L5
	LD	G0,.a
	CMP	G0,#3
	JLE	.L8
	LD	G0,.a
	CMP	G0,#9
	JLE	.L9
	LD	G0,#3
	ST	G0,.a
.L9
	JMP	.L10
.L8
	LD	G0,#5
	ST	G0,.a
.L10
	LD	G0,.a
	CMP	G0,#4
	JLE	.L11
	LD	G0,.a
	CMP	G0,#10
	JLE	.L12
	LD	G0,#3
	ST	G0,.a
	JMP	.L13
.L12
	LD	G0,.a
	CMP	G0,#11
	JLE	.L14
	LD	G0,#4
	ST	G0,.a
.L14
.L13
	JMP	.L15
.L11
	LD	G0,#5
	ST	G0,.a
.L15
	LD	G0,.a
	CMP	G0,#5
	JLE	.L16
	JMP	.L17
.L16
.L17
	LD	G0,.a
	CMP	G0,#6
	JLE	.L18
	JMP	.L19
.L18
.L19
	POP	FP
	RET
".
Proof. vm_compute. reflexivity. Qed.

Definition t800_src : list Z := codes "# 0 ""/repo/Test/c--/t800.cmm""
# 0 ""<built-in>""
# 0 ""<command-line>""
# 1 ""/repo/Test/c--/t800.cmm""
# 9 ""/repo/Test/c--/t800.cmm""
char a = 'a';
char b = '\n';
char c = '\t';
char d = '\r';
char e = '\x12';
char f = '\123';
char g = '\'';
char h = '\""';
char i = '\\';
char j = ';';

char[] o = ""abcd"";
char[] p = ""abcd\n"";
char[] q = ""abcd\t"";
char[] r = ""abcd\r"";
char[] s = ""ab\x12 34cd"";
char[] t = ""\12x34cd"";
char[] u = ""ab\'cd"";
char[] v = ""ab\""cde"";
char[] w = ""ab\\cde"";
char[] x = ""ab;cde"";
"%string.
Example t800_ic : compileText true false vm2ic t800_src = text "vmNam(0)
vmDwCns(97)
vmNam(1)
vmDwCns(10)
vmNam(2)
vmDwCns(9)
vmNam(3)
vmDwCns(13)
vmNam(4)
vmDwCns(18)
vmNam(5)
vmDwCns(83)
vmNam(6)
vmDwCns(39)
vmNam(7)
vmDwCns(34)
vmNam(8)
vmDwCns(92)
vmNam(9)
vmDwCns(59)
vmLab(1)
vmStr(""abcd"")
vmNam(10)
vmDwLab(1)
vmLab(2)
vmStr(""abcd\n"")
vmNam(11)
vmDwLab(2)
vmLab(3)
vmStr(""abcd\t"")
vmNam(12)
vmDwLab(3)
vmLab(4)
vmStr(""abcd\r"")
vmNam(13)
vmDwLab(4)
vmLab(5)
vmStr(""ab\022 34cd"")
vmNam(14)
vmDwLab(5)
vmLab(6)
vmStr(""\012x34cd"")
vmNam(15)
vmDwLab(6)
vmLab(7)
vmStr(""ab\'cd"")
vmNam(16)
vmDwLab(7)
vmLab(8)
vmStr(""ab\""cde"")
vmNam(17)
vmDwLab(8)
vmLab(9)
vmStr(""ab\\cde"")
vmNam(18)
vmDwLab(9)
vmLab(10)
vmStr(""ab;cde"")
vmNam(19)
vmDwLab(10)
".
Proof. vm_compute. reflexivity. Qed.
Example t800_vm : compileText true false vm2vm t800_src = text ".a
	DW	97
.b
	DW	10
.c
	DW	9
.d
	DW	13
.e
	DW	18
.f
	DW	83
.g
	DW	39
.h
	DW	34
.i
	DW	92
.j
	DW	59
.L1
	STRING	""abcd""
.o
	DW	.L1
.L2
	STRING	""abcd\n""
.p
	DW	.L2
.L3
	STRING	""abcd\t""
.q
	DW	.L3
.L4
	STRING	""abcd\r""
.r
	DW	.L4
.L5
	STRING	""ab\022 34cd""
.s
	DW	.L5
.L6
	STRING	""\012x34cd""
.t
	DW	.L6
.L7
	STRING	""ab\'cd""
.u
	DW	.L7
.L8
	STRING	""ab\""cde""
.v
	DW	.L8
.L9
	STRING	""ab\\cde""
.w
	DW	.L9
.L10
	STRING	""ab;cde""
.x
	DW	.L10
".
Proof. vm_compute. reflexivity. Qed.
Example t800_tac : compileText true false vm2tac t800_src = text ".a	DW	97
.b	DW	10
.c	DW	9
.d	DW	13
.e	DW	18
.f	DW	83
.g	DW	39
.h	DW	34
.i	DW	92
.j	DW	59
.L1	STRING	""abcd""
.o	DW	.L1
.L2	STRING	""abcd\n""
.p	DW	.L2
.L3	STRING	""abcd\t""
.q	DW	.L3
.L4	STRING	""abcd\r""
.r	DW	.L4
.L5	STRING	""ab\022 34cd""
.s	DW	.L5
.L6	STRING	""\012x34cd""
.t	DW	.L6
.L7	STRING	""ab\'cd""
.u	DW	.L7
.L8	STRING	""ab\""cde""
.v	DW	.L8
.L9	STRING	""ab\\cde""
.w	DW	.L9
.L10	STRING	""ab;cde""
.x	DW	.L10
".
Proof. vm_compute. reflexivity. Qed.

Definition t900_src : list Z := codes "# 0 ""/repo/Test/c--/t900.cmm""
# 0 ""<built-in>""
# 0 ""<command-line>""
# 1 ""/repo/Test/c--/t900.cmm""

char c;
int i;

void f(char c) { }



char g() {
  f(chr(i));
  c = chr(i + 1);
  return chr(i);
}
"%string.
Example t900_ic : compileText true false vm2ic t900_src = text "vmNam(0)
vmWs(1)
vmNam(1)
vmWs(1)
vmNam(2)
vmEntry(0)
vmRet()
vmNam(4)
vmEntry(0)
vmLdGlb(1)
vmChr()
vmArg()
vmCallP(1, 2)
vmLdGlb(1)
vmLdCns(1)
vmAdd()
vmChr()
vmStGlb(0)
vmPop()
vmLdGlb(1)
vmChr()
vmMReg()
vmRet()
".
Proof. vm_compute. reflexivity. Qed.
Example t900_vm : compileText true false vm2vm t900_src = text ".c
	WS	1
.i
	WS	1
.f
	ENTRY	0
	RET
.g
	ENTRY	0
	LDG	.i
	CHR
	ARG
	CALLP	1,.f
	LDG	.i
	LDC	1
	ADD
	CHR
	STG	.c
	POP
	LDG	.i
	CHR
	MREG
	RET
".
Proof. vm_compute. reflexivity. Qed.
Example t900_tac : compileText true false vm2tac t900_src = text ".c	WS	1
.i	WS	1
.f	PUSH	FP
	LD	FP,SP
	CALL	__stkChk
	POP	FP
	RET
.g	PUSH	FP
	LD	FP,SP
	CALL	__stkChk
	LD	G0,.i
	AND	G0,#255
	PUSH	G0
	CALL	.f
	ADD	SP,#2
	LD	G0,.i
	ADD	G0,#1
	AND	G0,#255
	ST	G0,.c
	LD	G0,.i
	AND	G0,#255
	POP	FP
	RET
".
Proof. vm_compute. reflexivity. Qed.

Definition t910_src : list Z := codes "# 0 ""/repo/Test/c--/t910.cmm""
# 0 ""<built-in>""
# 0 ""<command-line>""
# 1 ""/repo/Test/c--/t910.cmm""

char c;
int i;

void f(int i) { }



int g() {
  f(c);
  i = c;
  return c;
}
"%string.
Example t910_ic : compileText true false vm2ic t910_src = text "vmNam(0)
vmWs(1)
vmNam(1)
vmWs(1)
vmNam(2)
vmEntry(0)
vmRet()
vmNam(4)
vmEntry(0)
vmLdGlb(0)
vmArg()
vmCallP(1, 2)
vmLdGlb(0)
vmStGlb(1)
vmPop()
vmLdGlb(0)
vmMReg()
vmRet()
".
Proof. vm_compute. reflexivity. Qed.
Example t910_vm : compileText true false vm2vm t910_src = text ".c
	WS	1
.i
	WS	1
.f
	ENTRY	0
	RET
.g
	ENTRY	0
	LDG	.c
	ARG
	CALLP	1,.f
	LDG	.c
	STG	.i
	POP
	LDG	.c
	MREG
	RET
".
Proof. vm_compute. reflexivity. Qed.
Example t910_tac : compileText true false vm2tac t910_src = text ".c	WS	1
.i	WS	1
.f	PUSH	FP
	LD	FP,SP
	CALL	__stkChk
	POP	FP
	RET
.g	PUSH	FP
	LD	FP,SP
	CALL	__stkChk
	LD	G0,.c
	PUSH	G0
	CALL	.f
	ADD	SP,#2
	LD	G0,.c
	ST	G0,.i
	LD	G0,.c
	POP	FP
	RET
".
Proof. vm_compute. reflexivity. Qed.

Definition t920_src : list Z := codes "# 0 ""/repo/Test/c--/t920.cmm""
# 0 ""<built-in>""
# 0 ""<command-line>""
# 1 ""/repo/Test/c--/t920.cmm""

char c;
int i;


void f() {
  boolean b = c == i;
  int i = 'c' + 1;
  char c = chr(i + 1);
}

int x = 'c' + 250;
char y = chr('c' + 250);
"%string.
Example t920_ic : compileText true false vm2ic t920_src = text "vmNam(0)
vmWs(1)
vmNam(1)
vmWs(1)
vmNam(2)
vmEntry(3)
vmLdGlb(0)
vmLdGlb(1)
vmEq()
vmStLoc(1)
vmPop()
vmLdCns(100)
vmStLoc(2)
vmPop()
vmLdLoc(2)
vmLdCns(1)
vmAdd()
vmChr()
vmStLoc(3)
vmPop()
vmRet()
vmNam(3)
vmDwCns(349)
vmNam(4)
vmDwCns(93)
".
Proof. vm_compute. reflexivity. Qed.
Example t920_vm : compileText true false vm2vm t920_src = text ".c
	WS	1
.i
	WS	1
.f
	ENTRY	3
	LDG	.c
	LDG	.i
	EQ
	STL	1
	POP
	LDC	100
	STL	2
	POP
	LDL	2
	LDC	1
	ADD
	CHR
	STL	3
	POP
	RET
.x
	DW	349
.y
	DW	93
".
Proof. vm_compute. reflexivity. Qed.
Example t920_tac : compileText true false vm2tac t920_src = text ".c	WS	1
.i	WS	1
.f	PUSH	FP
	LD	FP,SP
	PUSH	G3
	PUSH	G4
	PUSH	G5
	CALL	__stkChk
	LD	G0,.c
	CMP	G0,.i
	LD	G3,#1
	JZ	.T0
	LD	G3,#0
.T0
	LD	G4,#100
	LD	G0,G4
	ADD	G0,#1
	AND	G0,#255
	LD	G5,G0
	POP	G5
	POP	G4
	POP	G3
	POP	FP
	RET
.x	DW	349
.y	DW	93
".
Proof. vm_compute. reflexivity. Qed.

Definition t930_src : list Z := codes "# 0 ""/repo/Test/c--/t930.cmm""
# 0 ""<built-in>""
# 0 ""<command-line>""
# 1 ""/repo/Test/c--/t930.cmm""

char c;
int i;

char g() {
  c = chr(c + 1);
  boolean b = 'a' <= c && c <= 'z';
  return chr(i);
}
"%string.
Example t930_ic : compileText true false vm2ic t930_src = text "vmNam(0)
vmWs(1)
vmNam(1)
vmWs(1)
vmNam(2)
vmEntry(1)
vmLdGlb(0)
vmLdCns(1)
vmAdd()
vmChr()
vmStGlb(0)
vmPop()
vmLdCns(97)
vmLdGlb(0)
vmLe()
vmJF(2)
vmLdGlb(0)
vmLdCns(122)
vmLe()
vmBoolAND(2, -1, 1)
vmStLoc(1)
vmPop()
vmLdGlb(1)
vmChr()
vmMReg()
vmRet()
".
Proof. vm_compute. reflexivity. Qed.
Example t930_vm : compileText true false vm2vm t930_src = text ".c
	WS	1
.i
	WS	1
.g
	ENTRY	1
	LDG	.c
	LDC	1
	ADD
	CHR
	STG	.c
	POP
	LDC	97
	LDG	.c
	LE
	JF	.L2
	LDG	.c
	LDC	122
	LE
; BOOLAND .L2,.L-1,.L1
	JMP	.L1
.L2
	LDC	0
.L1
; ----
	STL	1
	POP
	LDG	.i
	CHR
	MREG
	RET
".
Proof. vm_compute. reflexivity. Qed.
Example t930_tac : compileText true false vm2tac t930_src = text ".c	WS	1
.i	WS	1
.g	PUSH	FP
	LD	FP,SP
	PUSH	G3
	CALL	__stkChk
	LD	G0,.c
	ADD	G0,#1
	AND	G0,#255
	ST	G0,.c
	LD	G0,#97
	CMP	G0,.c
	JGT	.L2
	LD	G0,.c
	CMP	G0,#122
	LD	G0,#1
	JLE	.L1
.L2
	LD	G0,#0
.L1
	LD	G3,G0
	LD	G0,.i
	AND	G0,#255
	POP	G3
	POP	FP
	RET
".
Proof. vm_compute. reflexivity. Qed.
