typedef unsigned int u32;
typedef _Bool bool_;
struct list_head { struct list_head *next, *prev; };
enum state { IDLE = -1, BUSY = 7 };
struct inner { char tag; short half; union { long word; u32 parts[2]; }; } ;
struct wire { char kind; int value; short tail __attribute__((aligned(8))); } __attribute__((packed));
struct task {
  volatile enum state state;
  bool_ on;
  unsigned flags : 3, : 2, mode : 30;
  const char *comm;
  struct list_head tasks;
  struct inner in[3];
  struct wire wire;
  int (*run)(struct task *t, long n);
  double load;
};
struct task init;
