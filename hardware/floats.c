#include <stdio.h>
#include <stdint.h>
#include <string.h>
typedef unsigned __int128 u;
static void pr(u n){ if(n>9) pr(n/10); putchar('0'+(int)(n%10)); }
static uint64_t x=88172645463325252ull; static uint64_t rnd(){x^=x<<13;x^=x>>7;x^=x<<17;return x;}
int main(int c,char**v){ int N=3000; 
 for(int i=0;i<N;i++){ u ns=((u)rnd()<<64)|rnd(); ns>>=(rnd()%128); uint64_t len=rnd()>>(rnd()%64); if(i%2) len=51200000000ull;
  if(i%50==0){ ns=1; ns<<=(rnd()%128); ns-= (rnd()%3); }
  if(i%51==0){ ns=0; } if(i%53==0){ ns=~(u)0 - (((u)1)<<(rnd()%106)); }
  if(i%7==0){ ns = ((u)(rnd()>>40|0x800000)<<(rnd()%40+1)) ; ns|= ns&-ns; u h=(ns & -ns)>>1; ns|=h; ns+= (rnd()%3); ns-=1;}
  if(i%3==0){ ns=rnd()%100000000000ull; ns>>=(rnd()%30);} float f=(float)len, g=(float)ns, r=f/g; uint32_t b; memcpy(&b,&r,4);
  printf("((%lu, ",len); pr(ns); printf("), (%u, \"%.3f\"%%string))",b,r); printf("%s\n", i<N-1?";":""); } }
