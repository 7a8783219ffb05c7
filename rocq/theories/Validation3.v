(* The model of the C translator against the tests of the repository: for the files
   /repo/Test/c--/t*.cmm (after the C preprocessor, with the definitions for C and the file
   cfunc.hmm that the driver cm2c adds), the text that the model prints with -O is, byte for
   byte, the expected output committed in /repo/Test/c--/C.Opt.  Two of the 53 tests
   are left out, since they use sizeof (t160, t360; the simplification stated in CFile.v).  These are
   tests of the model, not theorems. *)
From Coq Require Import ZArith String List.
From Verif Require Import Lexer CFile.
Open Scope Z_scope.
Local Notation "'text' s" := (Some (codes s%string)) (at level 10, s at level 9, only parsing).

Example t010_c : translate true false (codes "# 0 ""/repo/Test/c--/t010.cmm""
# 0 ""<built-in>""
# 0 ""<command-line>""
# 1 ""/repo/lib/SrcC/cfunc.hmm"" 1
# 0 ""<command-line>"" 2
# 1 ""/repo/Test/c--/t010.cmm""





int a=1;
int b=2;
int c=3;
int[] x = array(5);
int[][] y = array(5,5);

int[] f1() {
  return y[1];
}

void f2() {
  b=y[1][a*b+c*f1()[2]];
}
"%string) = text "static int a=1;
static int b=2;
static int c=3;
static int _cmm_0T[5];
static int *x=_cmm_0T;
static int _cmm_1T[5];
static int _cmm_2T[5];
static int _cmm_3T[5];
static int _cmm_4T[5];
static int _cmm_5T[5];
static int *_cmm_6T[]={_cmm_1T,_cmm_2T,_cmm_3T,_cmm_4T,_cmm_5T};
static int **y=_cmm_6T;
static int *f1(){
return y[1];
}
static void f2(){
(b=y[1][((a*b)+(c*f1()[2]))]);
}
".
Proof. vm_compute. reflexivity. Qed.

Example t015_c : translate true false (codes "# 0 ""/repo/Test/c--/t015.cmm""
# 0 ""<built-in>""
# 0 ""<command-line>""
# 1 ""/repo/lib/SrcC/cfunc.hmm"" 1
# 0 ""<command-line>"" 2
# 1 ""/repo/Test/c--/t015.cmm""





int a=1;
public int b=2;
char c=chr(3);
public char[] x = array(5);
char[][] y = array(5,5);

char[] f1() {
  return y[1];
}

void f2() {
  c=y[1][a*b+ord(c)*ord(f1()[2])];
}
"%string) = text "static int a=1;
int b=2;
static char c=3;
static char _cmm_0T[5];
char *x=_cmm_0T;
static char _cmm_1T[5];
static char _cmm_2T[5];
static char _cmm_3T[5];
static char _cmm_4T[5];
static char _cmm_5T[5];
static char *_cmm_6T[]={_cmm_1T,_cmm_2T,_cmm_3T,_cmm_4T,_cmm_5T};
static char **y=_cmm_6T;
static char *f1(){
return y[1];
}
static void f2(){
(c=y[1][((a*b)+(c*f1()[2]))]);
}
".
Proof. vm_compute. reflexivity. Qed.

Example t020_c : translate true false (codes "# 0 ""/repo/Test/c--/t020.cmm""
# 0 ""<built-in>""
# 0 ""<command-line>""
# 1 ""/repo/lib/SrcC/cfunc.hmm"" 1
# 0 ""<command-line>"" 2
# 1 ""/repo/Test/c--/t020.cmm""





public int f1();

int a=1;
int b=2;
int c=3;
int[] x = array(5);
int[][] y = array(5,5);

void f2() {
  b=y[1][a*b+c*f1()];
}
"%string) = text "int f1();
static int a=1;
static int b=2;
static int c=3;
static int _cmm_0T[5];
static int *x=_cmm_0T;
static int _cmm_1T[5];
static int _cmm_2T[5];
static int _cmm_3T[5];
static int _cmm_4T[5];
static int _cmm_5T[5];
static int *_cmm_6T[]={_cmm_1T,_cmm_2T,_cmm_3T,_cmm_4T,_cmm_5T};
static int **y=_cmm_6T;
static void f2(){
(b=y[1][((a*b)+(c*f1()))]);
}
".
Proof. vm_compute. reflexivity. Qed.

Example t031_c : translate true false (codes "# 0 ""/repo/Test/c--/t031.cmm""
# 0 ""<built-in>""
# 0 ""<command-line>""
# 1 ""/repo/lib/SrcC/cfunc.hmm"" 1
# 0 ""<command-line>"" 2
# 1 ""/repo/Test/c--/t031.cmm""





public int f1();
public int[] f2();
int a=1;
int b=2;
int[] c;
int[][] d;
struct X {int b,a;};
X e;

void f3() {
  c[1]=b=a*b+d[2+f2()[3+a]][c[4]+5+c[6]+f1()+b];




}
"%string) = text "int f1();
int *f2();
static int a=1;
static int b=2;
static int *c;
static int **d;
typedef struct _X X;
struct _X {
int b;
int a;
};
static X *e;
static void f3(){
(c[1]=(b=((a*b)+d[(2+f2()[(3+a)])][((((c[4]+5)+c[6])+f1())+b)])));
}
".
Proof. vm_compute. reflexivity. Qed.

Example t032_c : translate true false (codes "# 0 ""/repo/Test/c--/t032.cmm""
# 0 ""<built-in>""
# 0 ""<command-line>""
# 1 ""/repo/lib/SrcC/cfunc.hmm"" 1
# 0 ""<command-line>"" 2
# 1 ""/repo/Test/c--/t032.cmm""





public int f1();
public int[] f2();
int a=1;
int b=2;
int[] c;
int[][] d;
struct X {int b,a;};
X e;

void f3() {

  c[1]=b=a*b+d[2+c[3+a]][c[4]+5+c[6]+f1()+b];



}
"%string) = text "int f1();
int *f2();
static int a=1;
static int b=2;
static int *c;
static int **d;
typedef struct _X X;
struct _X {
int b;
int a;
};
static X *e;
static void f3(){
(c[1]=(b=((a*b)+d[(2+c[(3+a)])][((((c[4]+5)+c[6])+f1())+b)])));
}
".
Proof. vm_compute. reflexivity. Qed.

Example t033_c : translate true false (codes "# 0 ""/repo/Test/c--/t033.cmm""
# 0 ""<built-in>""
# 0 ""<command-line>""
# 1 ""/repo/lib/SrcC/cfunc.hmm"" 1
# 0 ""<command-line>"" 2
# 1 ""/repo/Test/c--/t033.cmm""





public int f1();
public int[] f2();
int a=1;
int b=2;
int[] c;
int[][] d;
struct X {int b,a;};
X e;

void f3() {


  c[1]=b=a*b+d[2+3+e.a][c[4]+5+c[6]+f1()+b];


}
"%string) = text "int f1();
int *f2();
static int a=1;
static int b=2;
static int *c;
static int **d;
typedef struct _X X;
struct _X {
int b;
int a;
};
static X *e;
static void f3(){
(c[1]=(b=((a*b)+d[(5+e->a)][((((c[4]+5)+c[6])+f1())+b)])));
}
".
Proof. vm_compute. reflexivity. Qed.

Example t034_c : translate true false (codes "# 0 ""/repo/Test/c--/t034.cmm""
# 0 ""<built-in>""
# 0 ""<command-line>""
# 1 ""/repo/lib/SrcC/cfunc.hmm"" 1
# 0 ""<command-line>"" 2
# 1 ""/repo/Test/c--/t034.cmm""





public int f1();
public int[] f2();
int a=1;
int b=2;
int[] c;
int[][] d;
struct X {int b,a;};
X e;

void f3() {



  c[1]=b=a*b+d[2+1][c[4]+5+c[6]+f1()+b];

}
"%string) = text "int f1();
int *f2();
static int a=1;
static int b=2;
static int *c;
static int **d;
typedef struct _X X;
struct _X {
int b;
int a;
};
static X *e;
static void f3(){
(c[1]=(b=((a*b)+d[3][((((c[4]+5)+c[6])+f1())+b)])));
}
".
Proof. vm_compute. reflexivity. Qed.

Example t035_c : translate true false (codes "# 0 ""/repo/Test/c--/t035.cmm""
# 0 ""<built-in>""
# 0 ""<command-line>""
# 1 ""/repo/lib/SrcC/cfunc.hmm"" 1
# 0 ""<command-line>"" 2
# 1 ""/repo/Test/c--/t035.cmm""





public int f1();
public int[] f2();
int a=1;
int b=2;
int[] c;
int[][] d;
struct X {int b,a;};
X e;

void f3() {




    c[1]=b=a*b+a*b+d[2+1][2+1];
}
"%string) = text "int f1();
int *f2();
static int a=1;
static int b=2;
static int *c;
static int **d;
typedef struct _X X;
struct _X {
int b;
int a;
};
static X *e;
static void f3(){
(c[1]=(b=(((a*b)+(a*b))+d[3][3])));
}
".
Proof. vm_compute. reflexivity. Qed.

Example t040_c : translate true false (codes "# 0 ""/repo/Test/c--/t040.cmm""
# 0 ""<built-in>""
# 0 ""<command-line>""
# 1 ""/repo/lib/SrcC/cfunc.hmm"" 1
# 0 ""<command-line>"" 2
# 1 ""/repo/Test/c--/t040.cmm""






int a=1;
int b=2;
int[] c;
int[][] d;

void f3() {
  b=d[1][a*b+a*b+c[1]+a*b];
}
"%string) = text "static int a=1;
static int b=2;
static int *c;
static int **d;
static void f3(){
(b=d[1][((((a*b)+(a*b))+c[1])+(a*b))]);
}
".
Proof. vm_compute. reflexivity. Qed.

Example t050_c : translate true false (codes "# 0 ""/repo/Test/c--/t050.cmm""
# 0 ""<built-in>""
# 0 ""<command-line>""
# 1 ""/repo/lib/SrcC/cfunc.hmm"" 1
# 0 ""<command-line>"" 2
# 1 ""/repo/Test/c--/t050.cmm""






int a=1;
int b=2;
int[] c;
int[][] d;

void f3() {
  b=d[1][a*b+c[a*b+c[a*b]]+a*b];
}
"%string) = text "static int a=1;
static int b=2;
static int *c;
static int **d;
static void f3(){
(b=d[1][(((a*b)+c[((a*b)+c[(a*b)])])+(a*b))]);
}
".
Proof. vm_compute. reflexivity. Qed.

Example t060_c : translate true false (codes "# 0 ""/repo/Test/c--/t060.cmm""
# 0 ""<built-in>""
# 0 ""<command-line>""
# 1 ""/repo/lib/SrcC/cfunc.hmm"" 1
# 0 ""<command-line>"" 2
# 1 ""/repo/Test/c--/t060.cmm""





int a,b,c,d;

void f3() {
  a = a * ( b + c );
}
"%string) = text "static int a;
static int b;
static int c;
static int d;
static void f3(){
(a=(a*(b+c)));
}
".
Proof. vm_compute. reflexivity. Qed.

Example t070_c : translate true false (codes "# 0 ""/repo/Test/c--/t070.cmm""
# 0 ""<built-in>""
# 0 ""<command-line>""
# 1 ""/repo/lib/SrcC/cfunc.hmm"" 1
# 0 ""<command-line>"" 2
# 1 ""/repo/Test/c--/t070.cmm""





public int f1(int a);

void f2() {
  int a;
  do {
    a = f1(1);
    if (a>10) break;
    else continue;
    while (true) {
      break;
    }
    break;
  } while (a==0);
}
"%string) = text "int f1(int a);
static void f2(){
int a;
do{
(a=f1(1));
if((a>10))break;
else continue;
for(;;)
break;
break;
}
while((a==0));
}
".
Proof. vm_compute. reflexivity. Qed.

Example t080_c : translate true false (codes "# 0 ""/repo/Test/c--/t080.cmm""
# 0 ""<built-in>""
# 0 ""<command-line>""
# 1 ""/repo/lib/SrcC/cfunc.hmm"" 1
# 0 ""<command-line>"" 2
# 1 ""/repo/Test/c--/t080.cmm""





int a = 1;
boolean b = true;
char[] c = ""abc"";
int[] d = { 1,2,3};
boolean[] e = { true, false };
int[][] f = { { 1,2 }, { 3, 4}};
boolean[][] g = { { true, false}, {true, false}};

struct X {
  int a;
  boolean b;
  char[] c;
};

X h = { 1, true, ""abc"" };
X[] i = {{ 1, true, ""abc"" }, {2,false,""def""}};

void f0();

boolean f1(boolean t) {
  b = t && (a < 0);
  b = (1 + 2 == 3 + 4 && b) && 0 < 1;
  while (b==true) {
    b = e[a];
    b = !b;
  }
  for(int i=0;i==10;i=i+1)
   ;
  return b==false;
}
"%string) = text "static int a=1;
static char b=1;
#define _cmm_0S ""abc""
static char *c=_cmm_0S;
static int _cmm_0T[]={1,2,3};
static int *d=_cmm_0T;
static char _cmm_1T[]={1,0};
static char *e=_cmm_1T;
static int _cmm_2T[]={1,2};
static int _cmm_3T[]={3,4};
static int *_cmm_4T[]={_cmm_2T,_cmm_3T};
static int **f=_cmm_4T;
static char _cmm_5T[]={1,0};
static char _cmm_6T[]={1,0};
static char *_cmm_7T[]={_cmm_5T,_cmm_6T};
static char **g=_cmm_7T;
typedef struct _X X;
struct _X {
int a;
char b;
char *c;
};
#define _cmm_1S ""abc""
static X _cmm_8T={1,1,_cmm_1S};
static X *h=&_cmm_8T;
#define _cmm_2S ""abc""
#define _cmm_3S ""def""
static X _cmm_9T={1,1,_cmm_2S};
static X _cmm_10T={2,0,_cmm_3S};
static X *_cmm_11T[]={&_cmm_9T,&_cmm_10T};
static X **i=_cmm_11T;
static void f0();
static char f1(char t){
(b=(t&&(a<0)));
(b=0);
for(;(b==1);)
{
(b=e[a]);
(b=(!b));
}
{
int i;
(i=0);
for(;(i==10);(i=(i+1)))
;
}
return (b==0);
}
".
Proof. vm_compute. reflexivity. Qed.

Example t090_c : translate true false (codes "# 0 ""/repo/Test/c--/t090.cmm""
# 0 ""<built-in>""
# 0 ""<command-line>""
# 1 ""/repo/lib/SrcC/cfunc.hmm"" 1
# 0 ""<command-line>"" 2
# 1 ""/repo/Test/c--/t090.cmm""





int a;
boolean b = true;
boolean[] e = { true, false };

struct X {
  int a;
  boolean b;
  char[] c;
};

X h = { 1, true, ""abc"" };
X[] i = {{ 1, true, ""abc"" }, {2,false,""def""}};

boolean f1(boolean t) {
  b = (a < 0 ) && t;
  b = t && (a < 0);
  b = (1 + 2 == 3 + 4 && b) && 0 < 1;
  b = (1 + 2 == 3 + 4 || b) || 0 < 1;
  while (b==true) {
    b = !b;
  }
  for(int i=0;i==10;i=i+1)
   ;
  return b==false;
}
"%string) = text "static int a;
static char b=1;
static char _cmm_0T[]={1,0};
static char *e=_cmm_0T;
typedef struct _X X;
struct _X {
int a;
char b;
char *c;
};
#define _cmm_0S ""abc""
static X _cmm_1T={1,1,_cmm_0S};
static X *h=&_cmm_1T;
#define _cmm_1S ""abc""
#define _cmm_2S ""def""
static X _cmm_2T={1,1,_cmm_1S};
static X _cmm_3T={2,0,_cmm_2S};
static X *_cmm_4T[]={&_cmm_2T,&_cmm_3T};
static X **i=_cmm_4T;
static char f1(char t){
(b=((a<0)&&t));
(b=(t&&(a<0)));
(b=0);
(b=1);
for(;(b==1);)
(b=(!b));
{
int i;
(i=0);
for(;(i==10);(i=(i+1)))
;
}
return (b==0);
}
".
Proof. vm_compute. reflexivity. Qed.

Example t100_c : translate true false (codes "# 0 ""/repo/Test/c--/t100.cmm""
# 0 ""<built-in>""
# 0 ""<command-line>""
# 1 ""/repo/lib/SrcC/cfunc.hmm"" 1
# 0 ""<command-line>"" 2
# 1 ""/repo/Test/c--/t100.cmm""





int a = 5, b = 3, c = 2;

public void f(int n, char[] s);

public int main() {
  for (int x=a; x<b; x=x+c)
    f(x*x, ""abc"");
  return 0;
}
"%string) = text "static int a=5;
static int b=3;
static int c=2;
void f(int n,char *s);
#define _cmm_0S ""abc""
int main(){
{
int x;
(x=a);
for(;(x<b);(x=(x+c)))
f((x*x),_cmm_0S);
}
return 0;
}
".
Proof. vm_compute. reflexivity. Qed.

Example t120_c : translate true false (codes "# 0 ""/repo/Test/c--/t120.cmm""
# 0 ""<built-in>""
# 0 ""<command-line>""
# 1 ""/repo/lib/SrcC/cfunc.hmm"" 1
# 0 ""<command-line>"" 2
# 1 ""/repo/Test/c--/t120.cmm""





int x;
int y;
int x=1;
int x;
int y;

int a = 5, b = 3, c = 2;

int f(int n, char[] s);
int f(int n, char[] s);

int f(int a, char[] s) { return a=b;}

int f(int n, char[] s);

public int main() {
  a=x;
  b=y;
  for (int x=a; x<b; x=x+c)
    c=a+b+f(x*x, ""abc\r\n"");
  return 0;
}
"%string) = text "static int x;
static int y;
static int x=1;
static int a=5;
static int b=3;
static int c=2;
static int f(int n,char *s);
static int f(int n,char *s);
static int f(int a,char *s){
return (a=b);
}
static int f(int n,char *s);
#define _cmm_0S ""abc\r\n""
int main(){
(a=x);
(b=y);
{
int x;
(x=a);
for(;(x<b);(x=(x+c)))
(c=((a+b)+f((x*x),_cmm_0S)));
}
return 0;
}
".
Proof. vm_compute. reflexivity. Qed.

Example t130_c : translate true false (codes "# 0 ""/repo/Test/c--/t130.cmm""
# 0 ""<built-in>""
# 0 ""<command-line>""
# 1 ""/repo/lib/SrcC/cfunc.hmm"" 1
# 0 ""<command-line>"" 2
# 1 ""/repo/Test/c--/t130.cmm""





int x=0;

int x; int y;

struct X {int a,b;};

char f() {
  int i,j;
  X l;

  if ((i==j)==(x==y)) return chr(i);

  if (l==l) return chr(i);

  i=(j=i*2);

  for (i=0, j=0; i<10; i=i+1)
    j=j*2;
  for (i=j=0; i<10; i=i+1)
    j=j*2;

  return chr(i);
}
"%string) = text "static int x=0;
static int y;
typedef struct _X X;
struct _X {
int a;
int b;
};
static char f(){
int i;
int j;
X *l;
{if(((i==j)==(x==y)))return (0xff&i);
}{if((l==l))return (0xff&i);
}(i=(j=(i*2)));
{
((i=0),(j=0));
for(;(i<10);(i=(i+1)))
(j=(j*2));
}
{
(i=(j=0));
for(;(i<10);(i=(i+1)))
(j=(j*2));
}
return (0xff&i);
}
".
Proof. vm_compute. reflexivity. Qed.

Example t140_c : translate true false (codes "# 0 ""/repo/Test/c--/t140.cmm""
# 0 ""<built-in>""
# 0 ""<command-line>""
# 1 ""/repo/lib/SrcC/cfunc.hmm"" 1
# 0 ""<command-line>"" 2
# 1 ""/repo/Test/c--/t140.cmm""




# 1 ""/usr/local/cmmInclude/stdio.hmm"" 1
# 41 ""/usr/local/cmmInclude/stdio.hmm""
typedef FILE;
# 73 ""/usr/local/cmmInclude/stdio.hmm""
public FILE stdin;
public FILE stdout;
public FILE stderr;

public boolean _feof(FILE stream);
public boolean ferror(FILE stream);
public boolean fflush(FILE stream);
public boolean _fseek(FILE stream,int h,int l);
public boolean fsize(char[] path, int[] size);

public FILE _fOpen(char[] name,char[] mode);
public boolean fclose(FILE stream);

public boolean fputc(char c, FILE stream);
public boolean putchar(char c);
public boolean fputs(char[] s, FILE stream);
public boolean puts(char[] s);

public char fgetc(FILE stream);
public char getchar();
public char[] fgets(char[] s, int n, FILE stream);
public void perror(char[] s);

public int _fPrintf(FILE stream, char[] format, ...);
public int _printf(char[] format, ...);
# 6 ""/repo/Test/c--/t140.cmm"" 2

public int main() {
       _printf(""/* */"");
       _printf(""//"");
       _printf(
         ""/*"");
       _printf(


         ""/*"");
       _printf(""abcde\""fghi"");
       _printf(""\"""");
       putchar('\n');
       putchar('\'');
       return 0;
}
"%string) = text "#include <stdio.h>
#define _cmm_0S ""/* */""
#define _cmm_1S ""//""
#define _cmm_2S ""/*""
#define _cmm_3S ""/*""
#define _cmm_4S ""abcde\""fghi""
#define _cmm_5S ""\""""
int main(){
_printf(_cmm_0S);
_printf(_cmm_1S);
_printf(_cmm_2S);
_printf(_cmm_3S);
_printf(_cmm_4S);
_printf(_cmm_5S);
putchar(10);
putchar(39);
return 0;
}
".
Proof. vm_compute. reflexivity. Qed.

Example t150_c : translate true false (codes "# 0 ""/repo/Test/c--/t150.cmm""
# 0 ""<built-in>""
# 0 ""<command-line>""
# 1 ""/repo/lib/SrcC/cfunc.hmm"" 1
# 0 ""<command-line>"" 2
# 1 ""/repo/Test/c--/t150.cmm""





struct Node { Node next, prev; int val; };

Node n = { null, null, 10 };
Node m;

public int main() {
 n.next = n;
 n.prev = n;
 m = n.next.prev;

 Node l = m;
 l.next = l.prev.prev;
 int x = l.val;
 return 0;
}
"%string) = text "typedef struct _Node Node;
struct _Node {
Node *next;
Node *prev;
int val;
};
static Node _cmm_0T={0,0,10};
static Node *n=&_cmm_0T;
static Node *m;
int main(){
(n->next=n);
(n->prev=n);
(m=n->next->prev);
Node *l;
(l=m);
(l->next=l->prev->prev);
int x;
(x=l->val);
return 0;
}
".
Proof. vm_compute. reflexivity. Qed.

Example t170_c : translate true false (codes "# 0 ""/repo/Test/c--/t170.cmm""
# 0 ""<built-in>""
# 0 ""<command-line>""
# 1 ""/repo/lib/SrcC/cfunc.hmm"" 1
# 0 ""<command-line>"" 2
# 1 ""/repo/Test/c--/t170.cmm""





int a;
char b, c;
int d, e;
int f = 10, g = 20;
int[] h, i = { 1000,2000,3000 }, j;
int[][] k, l = { { 4000,5000},{6000,7000,8000} };
int[][][] m = { { {1,2},{3,4,5} }, { {6},{7,8},{9} } };
char[] n = ""aaaa"";
char[][] o = {""abc"",{'a','b','\0'}};
int[][][] p = { array(10), { {6},{7,8},{9} } };
int[] pq;

void f1() {
  int n;
  n = 1;
}

char[][][] q = { {""ab"",""cd""}, array(3)};

# 1 ""/usr/local/cmmInclude/stdlib.hmm"" 1
# 39 ""/usr/local/cmmInclude/stdlib.hmm""
public void[] _alcAddr;
public void _stdlibInit();

public void[] _mAlloc(int s);
public int[] iMalloc(int n);
public char[] cMalloc(int n);
public boolean[] bMalloc(int n);
public void[][] rMalloc(int n);
public void[] calloc(int c, int s);
public void free(void[] m);

public int atoi(char[] s);
public int htoi(char[] s);
public int rand();
public void srand(int seed);
public void exit(int status);


public char[][] environ;

public char[] _getenv(char[] name);
public boolean _putenv(char[] string);
public boolean _setenv(char[] name,char[] value,boolean overwrite);
public boolean _unsetenv(char[] name);

public boolean absPath(char[] path, char[] buf, int bufSiz);
public char[] getWd();
public boolean chDir(char[] pathname);
# 26 ""/repo/Test/c--/t170.cmm"" 2

int f2(int x, int y) {
  int la;
  int lb;
  int[] lc = _mAlloc(10);
  {
    int ld = x;
    int le = x;
  }
  int le = 30;
  char[] ls = ""ABCDE"";
  la = 10;
  b = chr(la);
  lb = ord(b);
  i[la] = lb;
  la = lb = 10;
  i[la] = lb = 10;
  i[la] = i[lb] = lb = 20;
  la = l[1][2];
  la = l[i[5]][i[la]];
  l[i[5]][i[la]]=i[la]=20;
  return la;
}

boolean f3() {
  boolean x = true || x && false || x;
  return x;
}

void f4() {
  int x = a | ord(b);
  int y = a*ord(b) ^ 1*2;
  int z = a & ord(b);
  boolean w = a == ord(b);
  boolean v = chr(a) != b;
  boolean u = a < ord(b);
  boolean t = a <= ord(b);
  boolean s = a > ord(b);
  boolean r = a >= ord(b);
  int q = a << ord(b);
  int p = a >> ord(b);
  int o = a + ord(b);
  int n = a - ord(b);
  int m = a * ord(b);
  int l = a / ord(b);
  int k = a % ord(b);
  int j = -a;
  int i = +a;
  boolean h = !w;
  int g = ~a;
  int f = a*ord(b)+ord(c)*d+2*3;
  boolean e = w && v;
  pq[2]=2;
}
"%string) = text "static int a;
static char b;
static char c;
static int d;
static int e;
static int f=10;
static int g=20;
static int *h;
static int _cmm_0T[]={1000,2000,3000};
static int *i=_cmm_0T;
static int *j;
static int **k;
static int _cmm_1T[]={4000,5000};
static int _cmm_2T[]={6000,7000,8000};
static int *_cmm_3T[]={_cmm_1T,_cmm_2T};
static int **l=_cmm_3T;
static int _cmm_4T[]={1,2};
static int _cmm_5T[]={3,4,5};
static int *_cmm_6T[]={_cmm_4T,_cmm_5T};
static int _cmm_7T[]={6};
static int _cmm_8T[]={7,8};
static int _cmm_9T[]={9};
static int *_cmm_10T[]={_cmm_7T,_cmm_8T,_cmm_9T};
static int **_cmm_11T[]={_cmm_6T,_cmm_10T};
static int ***m=_cmm_11T;
#define _cmm_0S ""aaaa""
static char *n=_cmm_0S;
#define _cmm_1S ""abc""
static char _cmm_12T[]={97,98,0};
static char *_cmm_13T[]={_cmm_1S,_cmm_12T};
static char **o=_cmm_13T;
static int *_cmm_14T[10];
static int _cmm_15T[]={6};
static int _cmm_16T[]={7,8};
static int _cmm_17T[]={9};
static int *_cmm_18T[]={_cmm_15T,_cmm_16T,_cmm_17T};
static int **_cmm_19T[]={_cmm_14T,_cmm_18T};
static int ***p=_cmm_19T;
static int *pq;
static void f1(){
int n;
(n=1);
}
#define _cmm_2S ""ab""
#define _cmm_3S ""cd""
static char *_cmm_20T[]={_cmm_2S,_cmm_3S};
static char *_cmm_21T[3];
static char **_cmm_22T[]={_cmm_20T,_cmm_21T};
static char ***q=_cmm_22T;
#include <stdlib.h>
#define _cmm_4S ""ABCDE""
static int f2(int x,int y){
int la;
int lb;
int *lc;
(lc=_mAlloc(10));
{
int ld;
(ld=x);
int le;
(le=x);
}
int le;
(le=30);
char *ls;
(ls=_cmm_4S);
(la=10);
(b=(0xff&la));
(lb=b);
(i[la]=lb);
(la=(lb=10));
(i[la]=(lb=10));
(i[la]=(i[lb]=(lb=20)));
(la=l[1][2]);
(la=l[i[5]][i[la]]);
(l[i[5]][i[la]]=(i[la]=20));
return la;
}
static char f3(){
char x;
(x=1);
return x;
}
static void f4(){
int x;
(x=(a|b));
int y;
(y=((a*b)^2));
int z;
(z=(a&b));
char w;
(w=(a==b));
char v;
(v=((0xff&a)!=b));
char u;
(u=(a<b));
char t;
(t=(a<=b));
char s;
(s=(a>b));
char r;
(r=(a>=b));
int q;
(q=(a<<b));
int p;
(p=(a>>b));
int o;
(o=(a+b));
int n;
(n=(a-b));
int m;
(m=(a*b));
int l;
(l=(a/b));
int k;
(k=(a%b));
int j;
(j=(-a));
int i;
(i=a);
char h;
(h=(!w));
int g;
(g=(~a));
int f;
(f=(((a*b)+6)+(c*d)));
char e;
(e=(w&&v));
(pq[2]=2);
}
".
Proof. vm_compute. reflexivity. Qed.

Example t180_c : translate true false (codes "# 0 ""/repo/Test/c--/t180.cmm""
# 0 ""<built-in>""
# 0 ""<command-line>""
# 1 ""/repo/lib/SrcC/cfunc.hmm"" 1
# 0 ""<command-line>"" 2
# 1 ""/repo/Test/c--/t180.cmm""





int a;

public int main() {
    if (1>2 && !(1>2) && true)
      a = 1;
    else
      a = 2;
    return 0;
}
"%string) = text "static int a;
int main(){
(a=2);
return 0;
}
".
Proof. vm_compute. reflexivity. Qed.

Example t200_c : translate true false (codes "# 0 ""/repo/Test/c--/t200.cmm""
# 0 ""<built-in>""
# 0 ""<command-line>""
# 1 ""/repo/lib/SrcC/cfunc.hmm"" 1
# 0 ""<command-line>"" 2
# 1 ""/repo/Test/c--/t200.cmm""




public int f();

public int main() {
  int i,j,k;
  i = j * k;
  i = j / k;
  i = j % k;
  i = f() * k;
  i = f() / k;
  i = f() % k;
  i = j * f();
  i = j / f();
  i = j % f();
  return 0;
}
"%string) = text "int f();
int main(){
int i;
int j;
int k;
(i=(j*k));
(i=(j/k));
(i=(j%k));
(i=(f()*k));
(i=(f()/k));
(i=(f()%k));
(i=(j*f()));
(i=(j/f()));
(i=(j%f()));
return 0;
}
".
Proof. vm_compute. reflexivity. Qed.

Example t210_c : translate true false (codes "# 0 ""/repo/Test/c--/t210.cmm""
# 0 ""<built-in>""
# 0 ""<command-line>""
# 1 ""/repo/lib/SrcC/cfunc.hmm"" 1
# 0 ""<command-line>"" 2
# 1 ""/repo/Test/c--/t210.cmm""





public int main() {
  int a;
  for (;;) {
    if (1>0) continue;
    for (int i=0; i<100; i=i+1) {
      if (i<0) continue;
      a = 3;
      if (i<0) break;
    }
    if (1>0) break;
  }
  return 0;
}
"%string) = text "int main(){
int a;
{
;
for(;;)
{
continue;
{
int i;
(i=0);
for(;(i<100);(i=(i+1)))
{
{if((i<0))continue;
}(a=3);
{if((i<0))break;
}}
}
break;
}
}
return 0;
}
".
Proof. vm_compute. reflexivity. Qed.

Example t220_c : translate true false (codes "# 0 ""/repo/Test/c--/t220.cmm""
# 0 ""<built-in>""
# 0 ""<command-line>""
# 1 ""/repo/lib/SrcC/cfunc.hmm"" 1
# 0 ""<command-line>"" 2
# 1 ""/repo/Test/c--/t220.cmm""





public int main() {
  int a,i;
  while (true) {
    if (1>0) continue;
    while (i<100) {
      if (i<0) continue;
      a = 3;
      if (i<0) break;
    }
    if (1>0) break;
  }
  return 0;
}
"%string) = text "int main(){
int a;
int i;
for(;;)
{
continue;
for(;(i<100);)
{
{if((i<0))continue;
}(a=3);
{if((i<0))break;
}}
break;
}
return 0;
}
".
Proof. vm_compute. reflexivity. Qed.

Example t230_c : translate true false (codes "# 0 ""/repo/Test/c--/t230.cmm""
# 0 ""<built-in>""
# 0 ""<command-line>""
# 1 ""/repo/lib/SrcC/cfunc.hmm"" 1
# 0 ""<command-line>"" 2
# 1 ""/repo/Test/c--/t230.cmm""





public int main() {
  int a;

  if (a>1) a=1;
  if (1>a) a=1;

  if (a>=1) a=1;
  if (1>=a) a=1;

  if (a==1) a=1;
  if (1==a) a=1;

  if (a!=1) a=1;
  if (1!=a) a=1;

  if (a<=1) a=1;
  if (1<=a) a=1;

  if (a<1) a=1;
  if (1<a) a=1;
  return 0;
}
"%string) = text "int main(){
int a;
{if((a>1))(a=1);
}{if((1>a))(a=1);
}{if((a>=1))(a=1);
}{if((1>=a))(a=1);
}{if((a==1))(a=1);
}{if((1==a))(a=1);
}{if((a!=1))(a=1);
}{if((1!=a))(a=1);
}{if((a<=1))(a=1);
}{if((1<=a))(a=1);
}{if((a<1))(a=1);
}{if((1<a))(a=1);
}return 0;
}
".
Proof. vm_compute. reflexivity. Qed.

Example t240_c : translate true false (codes "# 0 ""/repo/Test/c--/t240.cmm""
# 0 ""<built-in>""
# 0 ""<command-line>""
# 1 ""/repo/lib/SrcC/cfunc.hmm"" 1
# 0 ""<command-line>"" 2
# 1 ""/repo/Test/c--/t240.cmm""




int[][] a = array(2,2);
int[] b = array(2);
struct T {int x; int[] a; T b;};
T t;
public int[] f();

public int main() {
     (a[1])[2] = 2;
     (t.a)[1] = 2;
     (t.b).b.x = 2;
     f()[1+1]=1;
     (b=f())[2+2]=2;
     return 0;
}
"%string) = text "static int _cmm_0T[2];
static int _cmm_1T[2];
static int *_cmm_2T[]={_cmm_0T,_cmm_1T};
static int **a=_cmm_2T;
static int _cmm_3T[2];
static int *b=_cmm_3T;
typedef struct _T T;
struct _T {
int x;
int *a;
T *b;
};
static T *t;
int *f();
int main(){
(a[1][2]=2);
(t->a[1]=2);
(t->b->b->x=2);
(f()[2]=1);
((b=f())[4]=2);
return 0;
}
".
Proof. vm_compute. reflexivity. Qed.

Example t250_c : translate true false (codes "# 0 ""/repo/Test/c--/t250.cmm""
# 0 ""<built-in>""
# 0 ""<command-line>""
# 1 ""/repo/lib/SrcC/cfunc.hmm"" 1
# 0 ""<command-line>"" 2
# 1 ""/repo/Test/c--/t250.cmm""



boolean a,b,c,d,e,f,g,h,i;

public int main() {
  a = true && false && true;
  b = true || false || true;
  c = 1>1 && 2>2 && 3>3;
  d = 1>1 || 2>2 || 3>3;
  e = 1>1 || 2>2 || 3>3 && 4>4 && 5>5;
  f = 1>1 && 2>2 && 3>3 || 4>4 || 5>5;
  g = 1>1 || 2>2 && 3>3 && 4>4 || 5>5;
  return 0;
}
"%string) = text "static char a;
static char b;
static char c;
static char d;
static char e;
static char f;
static char g;
static char h;
static char i;
int main(){
(a=0);
(b=1);
(c=0);
(d=0);
(e=0);
(f=0);
(g=0);
return 0;
}
".
Proof. vm_compute. reflexivity. Qed.

Example t260_c : translate true false (codes "# 0 ""/repo/Test/c--/t260.cmm""
# 0 ""<built-in>""
# 0 ""<command-line>""
# 1 ""/repo/lib/SrcC/cfunc.hmm"" 1
# 0 ""<command-line>"" 2
# 1 ""/repo/Test/c--/t260.cmm""



boolean a,b,c,d,e,f,g,h,i;

public int main() {
  if (true && false && true) a = true; else a = false;
  if (true || false || true) b = true;
  if (1>1 && 2>2 && 3>3) c = true;
  if (1>1 || 2>2 || 3>3) d = true;
  if (1>1 || 2>2 || 3>3 && 4>4 && 5>5) e = true;
  if (1>1 && 2>2 && 3>3 || 4>4 || 5>5) f = true;
  if (1>1 || 2>2 && 3>3 && 4>4 || 5>5) g = true;
  return 0;
}
"%string) = text "static char a;
static char b;
static char c;
static char d;
static char e;
static char f;
static char g;
static char h;
static char i;
int main(){
(a=0);
(b=1);
;
;
;
;
;
return 0;
}
".
Proof. vm_compute. reflexivity. Qed.

Example t280_c : translate true false (codes "# 0 ""/repo/Test/c--/t280.cmm""
# 0 ""<built-in>""
# 0 ""<command-line>""
# 1 ""/repo/lib/SrcC/cfunc.hmm"" 1
# 0 ""<command-line>"" 2
# 1 ""/repo/Test/c--/t280.cmm""




void f() {
  int a;
  int b;
  int c;
  int d;
  int e;
  int f;
  int g;
  int h;

  e = f;
  g = h;
}
"%string) = text "static void f(){
int a;
int b;
int c;
int d;
int e;
int f;
int g;
int h;
(e=f);
(g=h);
}
".
Proof. vm_compute. reflexivity. Qed.

Example t290_c : translate true false (codes "# 0 ""/repo/Test/c--/t290.cmm""
# 0 ""<built-in>""
# 0 ""<command-line>""
# 1 ""/repo/lib/SrcC/cfunc.hmm"" 1
# 0 ""<command-line>"" 2
# 1 ""/repo/Test/c--/t290.cmm""





public int main() {
  boolean s = true && false;
  return 0;
}
"%string) = text "int main(){
char s;
(s=0);
return 0;
}
".
Proof. vm_compute. reflexivity. Qed.

Example t300_c : translate true false (codes "# 0 ""/repo/Test/c--/t300.cmm""
# 0 ""<built-in>""
# 0 ""<command-line>""
# 1 ""/repo/lib/SrcC/cfunc.hmm"" 1
# 0 ""<command-line>"" 2
# 1 ""/repo/Test/c--/t300.cmm""





boolean b;

public int main() {
  boolean s = true && (b = true);
  return 0;
}
"%string) = text "static char b;
int main(){
char s;
(s=(b=1));
return 0;
}
".
Proof. vm_compute. reflexivity. Qed.

Example t310_c : translate true false (codes "# 0 ""/repo/Test/c--/t310.cmm""
# 0 ""<built-in>""
# 0 ""<command-line>""
# 1 ""/repo/lib/SrcC/cfunc.hmm"" 1
# 0 ""<command-line>"" 2
# 1 ""/repo/Test/c--/t310.cmm""





public void[] __ItoA(int i);

struct TCB {
  int pc;
  int sp;
};

TCB[] tcbs = { {0, 0x5000}, {0, 0x8000}};
# 23 ""/repo/Test/c--/t310.cmm""
void task1() {

}

void task2() {

}
# 46 ""/repo/Test/c--/t310.cmm""
boolean boole;

public int main() {

  int[] vect = __ItoA(0xfe00);



  tcbs[0].pc = addrof(task1);
  tcbs[1].sp = addrof(task2)+100;


  int b = addrof(boole) + 10;

  return 0;
}
"%string) = text "void *__ItoA(int i);
typedef struct _TCB TCB;
struct _TCB {
int pc;
int sp;
};
static TCB _cmm_0T={0,20480};
static TCB _cmm_1T={0,32768};
static TCB *_cmm_2T[]={&_cmm_0T,&_cmm_1T};
static TCB **tcbs=_cmm_2T;
static void task1(){
;
}
static void task2(){
;
}
static char boole;
int main(){
int *vect;
(vect=__ItoA(65024));
(tcbs[0]->pc=((int)&task1));
(tcbs[1]->sp=(((int)&task2)+100));
int b;
(b=(((int)&boole)+10));
return 0;
}
".
Proof. vm_compute. reflexivity. Qed.

Example t320_c : translate true false (codes "# 0 ""/repo/Test/c--/t320.cmm""
# 0 ""<built-in>""
# 0 ""<command-line>""
# 1 ""/repo/lib/SrcC/cfunc.hmm"" 1
# 0 ""<command-line>"" 2
# 1 ""/repo/Test/c--/t320.cmm""





public void p();

public int main() {
  int a;
  p();
  p(),p(),p();
  a;
  a,a,a;

  return 0;
}
"%string) = text "void p();
int main(){
int a;
p();
((p(),p()),p());
a;
((a,a),a);
return 0;
}
".
Proof. vm_compute. reflexivity. Qed.

Example t330_c : translate true false (codes "# 0 ""/repo/Test/c--/t330.cmm""
# 0 ""<built-in>""
# 0 ""<command-line>""
# 1 ""/repo/lib/SrcC/cfunc.hmm"" 1
# 0 ""<command-line>"" 2
# 1 ""/repo/Test/c--/t330.cmm""






public int main() {
     do {
     } while (1>2 && 1>2);

     while (1>2 && 1>2) {
       int a = 1;
     }

     do {
     } while (1>2 || 1>2);

     while (1>2 || 1>2) {
       int a = 1;
     }

     do {
     } while ((1>2 || 1>2) && (1>2 || 1>2));

     while ((1>2 || 1>2) && (1>2 || 1>2)) {
       int a = 1;
     }

     do {
     } while ((1>2 && 1>2) || (1>2 && 1>2));

     while ((1>2 && 1>2) || (1>2 && 1>2)) {
       int a = 1;
     }

     return 0;
}
"%string) = text "int main(){
;
;
;
;
;
;
;
;
;
;
;
;
return 0;
}
".
Proof. vm_compute. reflexivity. Qed.

Example t340_c : translate true false (codes "# 0 ""/repo/Test/c--/t340.cmm""
# 0 ""<built-in>""
# 0 ""<command-line>""
# 1 ""/repo/lib/SrcC/cfunc.hmm"" 1
# 0 ""<command-line>"" 2
# 1 ""/repo/Test/c--/t340.cmm""




public int main() {
     while (1>2 && (2>3|| (3>4 && 4>5)));
     while (1>2 || (2>3&& (3>4 || 4>5)));
     while (1>2 && (2>3|| (3>4 && (4>5 || 5>6))));
     while (1>2 || (2>3&& (3>4 || (4>5 && 5>6))));

     do {} while (1>2 && (2>3|| (3>4 && 4>5)));
     do {} while (1>2 || (2>3&& (3>4 || 4>5)));
     do {} while (1>2 && (2>3|| (3>4 && (4>5 || 5>6))));
     do {} while (1>2 || (2>3&& (3>4 || (4>5 && 5>6))));

     return 0;
}
"%string) = text "int main(){
;
;
;
;
;
;
;
;
;
;
;
;
return 0;
}
".
Proof. vm_compute. reflexivity. Qed.

Example t350_c : translate true false (codes "# 0 ""/repo/Test/c--/t350.cmm""
# 0 ""<built-in>""
# 0 ""<command-line>""
# 1 ""/repo/lib/SrcC/cfunc.hmm"" 1
# 0 ""<command-line>"" 2
# 1 ""/repo/Test/c--/t350.cmm""





boolean a,b;
public boolean f();

public int main() {
  boolean c = (a!=b) && (a==b) == f();

  return 0;
}
"%string) = text "static char a;
static char b;
char f();
int main(){
char c;
(c=((a!=b)&&((a==b)==f())));
return 0;
}
".
Proof. vm_compute. reflexivity. Qed.

Example t380_c : translate true false (codes "# 0 ""/repo/Test/c--/t380.cmm""
# 0 ""<built-in>""
# 0 ""<command-line>""
# 1 ""/repo/lib/SrcC/cfunc.hmm"" 1
# 0 ""<command-line>"" 2
# 1 ""/repo/Test/c--/t380.cmm""




int a,b,c,d,e;
boolean s,t,u,v,w;

void f() {
  if (((a>b)==(b>c)) && c>d || a>b && b>c) {
   a=1;
  } else {
   a=2;
  }
  v = ((a>b)==(b>c)) && c>d || a>b && b>c;

  if ((s==t) && a+b>=0 || u && v) {
   a=3;
  } else {
   a=4;
  }

  a = (a+b+c+d+e+a*b+b*c+c*d*e)*ord(((s==t) && a+b>=0 || u && v) &&
    (s==t) && a+b>=0 || u && v);
}
"%string) = text "static int a;
static int b;
static int c;
static int d;
static int e;
static char s;
static char t;
static char u;
static char v;
static char w;
static void f(){
if(((((a>b)==(b>c))&&(c>d))||((a>b)&&(b>c))))(a=1);
else (a=2);
(v=((((a>b)==(b>c))&&(c>d))||((a>b)&&(b>c))));
if((((s==t)&&((a+b)>=0))||(u&&v)))(a=3);
else (a=4);
(a=((((((((a+b)+c)+d)+e)+(a*b))+(b*c))+((c*d)*e))*((((((s==t)&&((a+b)>=0))||(u&&v))&&(s==t))&&((a+b)>=0))||(u&&v))));
}
".
Proof. vm_compute. reflexivity. Qed.

Example t390_c : translate true false (codes "# 0 ""/repo/Test/c--/t390.cmm""
# 0 ""<built-in>""
# 0 ""<command-line>""
# 1 ""/repo/lib/SrcC/cfunc.hmm"" 1
# 0 ""<command-line>"" 2
# 1 ""/repo/Test/c--/t390.cmm""




char[][]a;
int[] c;
int e;

public char x();
public int y();

public int main() {
 a[2+1][c[4]+5+c[6]+y()+e]=x();
 return 0;
}
"%string) = text "static char **a;
static int *c;
static int e;
char x();
int y();
int main(){
(a[3][((((c[4]+5)+c[6])+y())+e)]=x());
return 0;
}
".
Proof. vm_compute. reflexivity. Qed.

Example t400_c : translate true false (codes "# 0 ""/repo/Test/c--/t400.cmm""
# 0 ""<built-in>""
# 0 ""<command-line>""
# 1 ""/repo/lib/SrcC/cfunc.hmm"" 1
# 0 ""<command-line>"" 2
# 1 ""/repo/Test/c--/t400.cmm""




public int main() {
  int a,b,c,d,e,f,g,h,i,j,k;
  a = 1;
  b = 2;
  c = 3;
  d = 4;
  e = 5;
  f = 6;
  g = 7;
  h = 8;
  i = 9;
  j = 10;
  k = 11;

  return 0;
}
"%string) = text "int main(){
int a;
int b;
int c;
int d;
int e;
int f;
int g;
int h;
int i;
int j;
int k;
(a=1);
(b=2);
(c=3);
(d=4);
(e=5);
(f=6);
(g=7);
(h=8);
(i=9);
(j=10);
(k=11);
return 0;
}
".
Proof. vm_compute. reflexivity. Qed.

Example t500_c : translate true false (codes "# 0 ""/repo/Test/c--/t500.cmm""
# 0 ""<built-in>""
# 0 ""<command-line>""
# 1 ""/repo/lib/SrcC/cfunc.hmm"" 1
# 0 ""<command-line>"" 2
# 1 ""/repo/Test/c--/t500.cmm""

# 1 ""/usr/local/cmmInclude/stdio.hmm"" 1
# 41 ""/usr/local/cmmInclude/stdio.hmm""
typedef FILE;
# 73 ""/usr/local/cmmInclude/stdio.hmm""
public FILE stdin;
public FILE stdout;
public FILE stderr;

public boolean _feof(FILE stream);
public boolean ferror(FILE stream);
public boolean fflush(FILE stream);
public boolean _fseek(FILE stream,int h,int l);
public boolean fsize(char[] path, int[] size);

public FILE _fOpen(char[] name,char[] mode);
public boolean fclose(FILE stream);

public boolean fputc(char c, FILE stream);
public boolean putchar(char c);
public boolean fputs(char[] s, FILE stream);
public boolean puts(char[] s);

public char fgetc(FILE stream);
public char getchar();
public char[] fgets(char[] s, int n, FILE stream);
public void perror(char[] s);

public int _fPrintf(FILE stream, char[] format, ...);
public int _printf(char[] format, ...);
# 3 ""/repo/Test/c--/t500.cmm"" 2



public FILE g(FILE f);

FILE h(FILE f) {
  return g(f);
}

public void f() {
  FILE f,p = _fOpen(""aaa.txt"",""r"");
  f = p;
  f = h(p);
}
"%string) = text "#include <stdio.h>
FILE *g(FILE *f);
static FILE *h(FILE *f){
return g(f);
}
#define _cmm_0S ""aaa.txt""
#define _cmm_1S ""r""
void f(){
FILE *f;
FILE *p;
(p=_fOpen(_cmm_0S,_cmm_1S));
(f=p);
(f=h(p));
}
".
Proof. vm_compute. reflexivity. Qed.

Example t600_c : translate true false (codes "# 0 ""/repo/Test/c--/t600.cmm""
# 0 ""<built-in>""
# 0 ""<command-line>""
# 1 ""/repo/lib/SrcC/cfunc.hmm"" 1
# 0 ""<command-line>"" 2
# 1 ""/repo/Test/c--/t600.cmm""



# 1 ""/usr/local/cmmInclude/stdio.hmm"" 1
# 41 ""/usr/local/cmmInclude/stdio.hmm""
typedef FILE;
# 73 ""/usr/local/cmmInclude/stdio.hmm""
public FILE stdin;
public FILE stdout;
public FILE stderr;

public boolean _feof(FILE stream);
public boolean ferror(FILE stream);
public boolean fflush(FILE stream);
public boolean _fseek(FILE stream,int h,int l);
public boolean fsize(char[] path, int[] size);

public FILE _fOpen(char[] name,char[] mode);
public boolean fclose(FILE stream);

public boolean fputc(char c, FILE stream);
public boolean putchar(char c);
public boolean fputs(char[] s, FILE stream);
public boolean puts(char[] s);

public char fgetc(FILE stream);
public char getchar();
public char[] fgets(char[] s, int n, FILE stream);
public void perror(char[] s);

public int _fPrintf(FILE stream, char[] format, ...);
public int _printf(char[] format, ...);
# 5 ""/repo/Test/c--/t600.cmm"" 2

public int main() {
  int a = ord('\377');
  int b = ord('\377')+1;
  char c = '\377';
  int d = ord(c);
  char[] e = ""\377\376"";
  int f = ord(e[1]);

  _printf(""a=%04x(00ff)\n"", a);
  _printf(""b=%04x(0100)\n"", b);
  _printf(""c=%04x(00ff)\n"", ord(c));
  _printf(""d=%04x(00ff)\n"", d);
  _printf(""e[1]=%04x(00fe)\n"", e[1]);
  _printf(""f=%04x(00fe)\n"", f);

  return 0;
}
"%string) = text "#include <stdio.h>
#define _cmm_0S ""\377\376""
#define _cmm_1S ""a=%04x(00ff)\n""
#define _cmm_2S ""b=%04x(0100)\n""
#define _cmm_3S ""c=%04x(00ff)\n""
#define _cmm_4S ""d=%04x(00ff)\n""
#define _cmm_5S ""e[1]=%04x(00fe)\n""
#define _cmm_6S ""f=%04x(00fe)\n""
int main(){
int a;
(a=255);
int b;
(b=256);
char c;
(c=255);
int d;
(d=c);
char *e;
(e=_cmm_0S);
int f;
(f=e[1]);
_printf(_cmm_1S,a);
_printf(_cmm_2S,b);
_printf(_cmm_3S,c);
_printf(_cmm_4S,d);
_printf(_cmm_5S,e[1]);
_printf(_cmm_6S,f);
return 0;
}
".
Proof. vm_compute. reflexivity. Qed.

Example t700_c : translate true false (codes "# 0 ""/repo/Test/c--/t700.cmm""
# 0 ""<built-in>""
# 0 ""<command-line>""
# 1 ""/repo/lib/SrcC/cfunc.hmm"" 1
# 0 ""<command-line>"" 2
# 1 ""/repo/Test/c--/t700.cmm""




int a;

void f() {
  if (a>1) if (a>7) a=3; else a=5; else a=6;
  if (a>2) if (a>8) a=3; else a=5;
  if (a>3){if (a>9) a=3;}else a=5;
  if (a>4){if (a>10) a=3; else if (a>11) a=4;} else a=5;
  if (a>5) ; else ;
  if (a>6) {} else {}
}
"%string) = text "static int a;
static void f(){
if((a>1))if((a>7))(a=3);
else (a=5);
else (a=6);
{if((a>2))if((a>8))(a=3);
else (a=5);
}if((a>3)){if((a>9))(a=3);
}else (a=5);
if((a>4))if((a>10))(a=3);
else {if((a>11))(a=4);
}else (a=5);
if((a>5));
else ;
if((a>6));
else ;
}
".
Proof. vm_compute. reflexivity. Qed.

Example t800_c : translate true false (codes "# 0 ""/repo/Test/c--/t800.cmm""
# 0 ""<built-in>""
# 0 ""<command-line>""
# 1 ""/repo/lib/SrcC/cfunc.hmm"" 1
# 0 ""<command-line>"" 2
# 1 ""/repo/Test/c--/t800.cmm""
# 9 ""/repo/Test/c--/t800.cmm""
char a = 'a';
char b = '\n';
char c = '\t';
char d = '\r';
char e = '\x12';
char f = '\123';
char g = '\'';
char h = '\""';
char i = '\\';
char j = ';';

char[] o = ""abcd"";
char[] p = ""abcd\n"";
char[] q = ""abcd\t"";
char[] r = ""abcd\r"";
char[] s = ""ab\x12 34cd"";
char[] t = ""\12x34cd"";
char[] u = ""ab\'cd"";
char[] v = ""ab\""cde"";
char[] w = ""ab\\cde"";
char[] x = ""ab;cde"";
"%string) = text "static char a=97;
static char b=10;
static char c=9;
static char d=13;
static char e=18;
static char f=83;
static char g=39;
static char h=34;
static char i=92;
static char j=59;
#define _cmm_0S ""abcd""
static char *o=_cmm_0S;
#define _cmm_1S ""abcd\n""
static char *p=_cmm_1S;
#define _cmm_2S ""abcd\t""
static char *q=_cmm_2S;
#define _cmm_3S ""abcd\r""
static char *r=_cmm_3S;
#define _cmm_4S ""ab\022 34cd""
static char *s=_cmm_4S;
#define _cmm_5S ""\012x34cd""
static char *t=_cmm_5S;
#define _cmm_6S ""ab\'cd""
static char *u=_cmm_6S;
#define _cmm_7S ""ab\""cde""
static char *v=_cmm_7S;
#define _cmm_8S ""ab\\cde""
static char *w=_cmm_8S;
#define _cmm_9S ""ab;cde""
static char *x=_cmm_9S;
".
Proof. vm_compute. reflexivity. Qed.

Example t900_c : translate true false (codes "# 0 ""/repo/Test/c--/t900.cmm""
# 0 ""<built-in>""
# 0 ""<command-line>""
# 1 ""/repo/lib/SrcC/cfunc.hmm"" 1
# 0 ""<command-line>"" 2
# 1 ""/repo/Test/c--/t900.cmm""

char c;
int i;

void f(char c) { }



char g() {
  f(chr(i));
  c = chr(i + 1);
  return chr(i);
}
"%string) = text "static char c;
static int i;
static void f(char c){
;
}
static char g(){
f((0xff&i));
(c=(0xff&(i+1)));
return (0xff&i);
}
".
Proof. vm_compute. reflexivity. Qed.

Example t910_c : translate true false (codes "# 0 ""/repo/Test/c--/t910.cmm""
# 0 ""<built-in>""
# 0 ""<command-line>""
# 1 ""/repo/lib/SrcC/cfunc.hmm"" 1
# 0 ""<command-line>"" 2
# 1 ""/repo/Test/c--/t910.cmm""

char c;
int i;

void f(int i) { }



int g() {
  f(c);
  i = c;
  return c;
}
"%string) = text "static char c;
static int i;
static void f(int i){
;
}
static int g(){
f(c);
(i=c);
return c;
}
".
Proof. vm_compute. reflexivity. Qed.

Example t920_c : translate true false (codes "# 0 ""/repo/Test/c--/t920.cmm""
# 0 ""<built-in>""
# 0 ""<command-line>""
# 1 ""/repo/lib/SrcC/cfunc.hmm"" 1
# 0 ""<command-line>"" 2
# 1 ""/repo/Test/c--/t920.cmm""

char c;
int i;


void f() {
  boolean b = c == i;
  int i = 'c' + 1;
  char c = chr(i + 1);
}

int x = 'c' + 250;
char y = chr('c' + 250);
"%string) = text "static char c;
static int i;
static void f(){
char b;
(b=(c==i));
int i;
(i=100);
char c;
(c=(0xff&(i+1)));
}
static int x=349;
static char y=93;
".
Proof. vm_compute. reflexivity. Qed.

Example t930_c : translate true false (codes "# 0 ""/repo/Test/c--/t930.cmm""
# 0 ""<built-in>""
# 0 ""<command-line>""
# 1 ""/repo/lib/SrcC/cfunc.hmm"" 1
# 0 ""<command-line>"" 2
# 1 ""/repo/Test/c--/t930.cmm""

char c;
int i;

char g() {
  c = chr(c + 1);
  boolean b = 'a' <= c && c <= 'z';
  return chr(i);
}
"%string) = text "static char c;
static int i;
static char g(){
(c=(0xff&(c+1)));
char b;
(b=((97<=c)&&(c<=122)));
return (0xff&i);
}
".
Proof. vm_compute. reflexivity. Qed.
Example t110_c : translate true false (codes "# 0 ""/repo/Test/c--/t110.cmm""
# 0 ""<built-in>""
# 0 ""<command-line>""
# 1 ""/repo/lib/SrcC/cfunc.hmm"" 1
# 0 ""<command-line>"" 2
# 1 ""/repo/Test/c--/t110.cmm""





int a = 1;
int b = -1;
int[] c = {1,-1,-10};
struct
 X { int x; boolean y; };
X d = {-1,true};
X[] e = {{1,false},{-1,true}};

public int main() {
  int f = 1;
  int g = -1;
  return 0;
}
"%string) = text "static int a=1;
static int b=-1;
static int _cmm_0T[]={1,-1,-10};
static int *c=_cmm_0T;
typedef struct _X X;
struct _X {
int x;
char y;
};
static X _cmm_1T={-1,1};
static X *d=&_cmm_1T;
static X _cmm_2T={1,0};
static X _cmm_3T={-1,1};
static X *_cmm_4T[]={&_cmm_2T,&_cmm_3T};
static X **e=_cmm_4T;
int main(){
int f;
(f=1);
int g;
(g=-1);
return 0;
}
".
Proof. vm_compute. reflexivity. Qed.

Example t190_c : translate true false (codes "# 0 ""/repo/Test/c--/t190.cmm""
# 0 ""<built-in>""
# 0 ""<command-line>""
# 1 ""/repo/lib/SrcC/cfunc.hmm"" 1
# 0 ""<command-line>"" 2
# 1 ""/repo/Test/c--/t190.cmm""




int[] a = array(10);
struct X {
  int a;
  int b;
};

public int main() {
  int i,j;
  X l;

  i = i + 0;
  i = i + 1;
  j = j - 0;
  j = j - 1;
  i = a[0];
  j = a[1];
  i = l.a;
  j = l.b;
  return 0;
}
"%string) = text "static int _cmm_0T[10];
static int *a=_cmm_0T;
typedef struct _X X;
struct _X {
int a;
int b;
};
int main(){
int i;
int j;
X *l;
(i=i);
(i=(i+1));
(j=j);
(j=(j+-1));
(i=a[0]);
(j=a[1]);
(i=l->a);
(j=l->b);
return 0;
}
".
Proof. vm_compute. reflexivity. Qed.

Example t270_c : translate true false (codes "# 0 ""/repo/Test/c--/t270.cmm""
# 0 ""<built-in>""
# 0 ""<command-line>""
# 1 ""/repo/lib/SrcC/cfunc.hmm"" 1
# 0 ""<command-line>"" 2
# 1 ""/repo/Test/c--/t270.cmm""





int i;

# 1 ""/usr/local/cmmInclude/stdio.hmm"" 1
# 41 ""/usr/local/cmmInclude/stdio.hmm""
typedef FILE;
# 73 ""/usr/local/cmmInclude/stdio.hmm""
public FILE stdin;
public FILE stdout;
public FILE stderr;

public boolean _feof(FILE stream);
public boolean ferror(FILE stream);
public boolean fflush(FILE stream);
public boolean _fseek(FILE stream,int h,int l);
public boolean fsize(char[] path, int[] size);

public FILE _fOpen(char[] name,char[] mode);
public boolean fclose(FILE stream);

public boolean fputc(char c, FILE stream);
public boolean putchar(char c);
public boolean fputs(char[] s, FILE stream);
public boolean puts(char[] s);

public char fgetc(FILE stream);
public char getchar();
public char[] fgets(char[] s, int n, FILE stream);
public void perror(char[] s);

public int _fPrintf(FILE stream, char[] format, ...);
public int _printf(char[] format, ...);
# 9 ""/repo/Test/c--/t270.cmm"" 2

public int main() {
  putchar(""ABC""[i-1]);
  return 0;
}
"%string) = text "static int i;
#include <stdio.h>
#define _cmm_0S ""ABC""
int main(){
putchar(_cmm_0S[(i+-1)]);
return 0;
}
".
Proof. vm_compute. reflexivity. Qed.

Example t370_c : translate true false (codes "# 0 ""/repo/Test/c--/t370.cmm""
# 0 ""<built-in>""
# 0 ""<command-line>""
# 1 ""/repo/lib/SrcC/cfunc.hmm"" 1
# 0 ""<command-line>"" 2
# 1 ""/repo/Test/c--/t370.cmm""




int a,c;
public int d();
public int e(int a, int b);
void f() {
     int b;
     b=(2+3*a+1)*(3+4)*(4+4);
     b=(2+3*a+1)*(3+4)*(4*4);
     b=3+a+4+5+6*(7+8);
     b=4/a/(2+2-(2-2));
     b=ord(4/a/(2+2-(2-2))>2/3/4);
     b=1+a+(d()*(1-1)*10*20)+2;
     b=ord(1+a>((b+4)+(c+6)));
     b=b+1+a-(3<<1);
     b=b+1+a-(3>>1);
     b=((1<<(16-1))|((1<<(16-1))-1));
     b=~0^((1<<(8-1))|((1<<(8-1))-1));
     b=((1<<15)+(1<<15))/2;
     b=b/20/a/5;
     b=b-20-a-5+25;
     b=b+20-10-(3-2);
     b=((1<<(8-1)|((1<<(8-1))-1)));
     b=b*2;
     b=2*b;
     b=b/2;
     b=b%2;

     b=b*1;
     b=1*b;
     b=b/1;
     b=b%1;

     boolean t;
     t=10>-1;
     t=(1>0) && t && (1>0);
     t=!(1>0) || t || !(1>0);

     e(1+a+2, 1*a*(1-1));
     while (1==0 || a<c) ;
     while (1==d()*(1-1)*10*20 || a<c) ;
# 53 ""/repo/Test/c--/t370.cmm""
     t = bool(a);


     for (char c=chr(0); c=='a'; c=chr(ord(c)-1)) ;
     for (boolean c=bool(0); c==true; c=bool(ord(c)-1)) ;
}
"%string) = text "static int a;
static int c;
int d();
int e(int a,int b);
static void f(){
int b;
(b=((3+(3*a))*56));
(b=((3+(3*a))*112));
(b=(102+a));
(b=(1/a));
(b=((1/a)>0));
(b=(3+a));
(b=((1+a)>((b+10)+c)));
(b=((b+-5)+a));
(b=(b+a));
(b=65535);
(b=-256);
(b=32768);
(b=((b/100)/a));
(b=(b-a));
(b=(b+9));
(b=255);
(b=(b*2));
(b=(2*b));
(b=(b/2));
(b=(b%2));
(b=b);
(b=b);
(b=b);
(b=0);
char t;
(t=1);
(t=t);
(t=t);
e((3+a),0);
for(;(a<c);)
;
for(;(a<c);)
;
(t=(0x01&a));
{
char c;
(c=0);
for(;(c==97);(c=(0xff&(c+-1))))
;
}
{
char c;
(c=0);
for(;(c==1);(c=(0x01&(c+-1))))
;
}
}
".
Proof. vm_compute. reflexivity. Qed.

