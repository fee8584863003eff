*.vo
*.vok
*.vos
*.glob
.*.aux
*.aux
rocq/Makefile
rocq/Makefile.conf
rocq/.Makefile.d
rocq/.lia.cache
.nia.cache
.lia.cache
.nra.cache
