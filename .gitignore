*.vo
*.vos
*.vok
*.glob
*.aux
.*.aux
*.d
.lia.cache
.nia.cache
.nra.cache
rocq/Makefile
rocq/Makefile.conf
rocq/.Makefile.d
