*.vo
*.vok
*.vos
*.glob
*.aux
.*.aux
Makefile.coq*
.lia.cache
Makefile
Makefile.conf
.Makefile.d
rocq/.Makefile.d
